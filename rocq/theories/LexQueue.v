(** LexQueue.v -- every step of the scanner keeps the text covered. *)
From Coq Require Import Lia ZifyBool ZifyNat ZifyN Bool.
From Verif Require Import Base Utf Chars State Reader Scanner Wp ReaderFacts ReadFacts ScanFacts Spec_Lexical LexBase LexScan LexNames LexQuoted LexPlain LexBlock LexFetch.
Open Scope N_scope.

Section text.
Variable rest : list byte.
Variable T : str.
Notation H := (H rest T).
Implicit Types q g r w : str.

(** The tokens delivered ([del]) and queued cover the text up to [q]; [g] has been skipped after it. *)
Record V (pend : option mark) (k : nat) (del : list token) q g r (s : sst) : Prop := {
  v_cov : covers T 0 [] (del ++ tokens s) q;
  v_skips : skips q (g ++ r) g r;
  v_H : H k (q ++ g) r s;
  v_parsed : tokens_parsed s = N.of_nat (length del);
  v_keys : keys (del ++ tokens s) pend (simple_keys s);
  v_pend : forall m, pend = Some m -> m = position (q ++ g);
  v_depth : flow_level s = depths 0 (del ++ tokens s) }.
Lemma V_less pend k k' del q g r s : (k' <= k)%nat -> V pend k del q g r s -> V pend k' del q g r s.
Proof. intros L []. constructor; auto. eapply H_less; eauto. Qed.
Lemma same_fields s s' : same s s' -> tokens s' = tokens s /\ tokens_parsed s' = tokens_parsed s /\ simple_keys s' = simple_keys s /\ flow_level s' = flow_level s /\ stream_start_produced s' = stream_start_produced s.
Proof. unfold same, frame. intros E. injection E as E1 E2 E3 E4 E5 E6 E7 E8 E9 E10. auto. Qed.
(** Operations that do not touch the reader. *)
Definition reader_same (s s' : sst) : Prop := forall k p r, H k p r s -> H k p r s'.
Ltac rs := intros k p r [A1 A2 A3 A4 A5]; constructor; [exact A1|destruct A2; constructor; assumption|exact A3|exact A4|exact A5].
Lemma rs_allowed b s : reader_same s (set_simple_key_allowed b s). Proof. rs. Qed.
Lemma rs_tokens l s : reader_same s (set_tokens l s). Proof. rs. Qed.
Lemma rs_keys l s : reader_same s (set_simple_keys l s). Proof. rs. Qed.
Lemma rs_indents l s : reader_same s (set_indents l s). Proof. rs. Qed.
Lemma rs_indent l s : reader_same s (set_indent l s). Proof. rs. Qed.
Lemma rs_flow l s : reader_same s (set_flow_level l s). Proof. rs. Qed.
Lemma V_same pend k del q g r s s' : V pend k del q g r s -> flow_level s' = flow_level s -> reader_same s s' -> tokens s' = tokens s -> tokens_parsed s' = tokens_parsed s -> keys (del ++ tokens s) pend (simple_keys s') ->
  V pend k del q g r s'.
Proof. intros [] E0 R E1 E2 K. constructor; rewrite ?E0, ?E1, ?E2; auto. Qed.
Lemma V_allowed pend k del q g r b s : V pend k del q g r s -> V pend k del q g r (set_simple_key_allowed b s).
Proof. intros X. eapply V_same; [exact X|reflexivity|apply rs_allowed|reflexivity|reflexivity|apply (v_keys _ _ _ _ _ _ _ X)]. Qed.

Definition keep (s s' : sst) : Prop := flow_level s' = flow_level s /\ stream_start_produced s' = stream_start_produced s.
Lemma V_cache n pend k del q g r s : V pend k del q g r s -> pc (cache n) (fun _ s' => V pend (Nat.max n k) del q g r s' /\ same s s') s.
Proof.
  intros X. eapply pc_conseq; [apply (L_cache _ _ n _ _ _ _ (v_H _ _ _ _ _ _ _ X))|]. cbn beta. intros _ s' (H1 & S1). split; [|exact S1].
  destruct (same_fields _ _ S1) as (E1 & E2 & E3 & E4 & _). destruct X. constructor; rewrite ?E1, ?E2, ?E3, ?E4; auto.
Qed.
Lemma V_to_next k del q g r s : V None k del q g r s -> pc scan_to_next_token (fun _ s' => exists g' r', V None 1 del q g' r' s' /\ keep s s') s.
Proof.
  intros X. eapply pc_conseq; [apply (L_to_next _ _ _ _ _ _ (v_H _ _ _ _ _ _ _ X))|]. cbn beta. intros _ s' (g' & r' & Sk & H1 & S1). exists (g ++ g'), r'.
  destruct (same_fields _ _ S1) as (E1 & E2 & E3 & E4). split; [|exact E4]. destruct X as [A1 A2 A3 A4 A5 A6 A7]. constructor; rewrite ?E1, ?E2, ?E3, ?(proj1 E4); auto; [|rewrite app_assoc; exact H1|discriminate].
  destruct Sk as [-> Sk]. destruct A2 as [_ A2]. split; [reflexivity|]. intros h r2 E G. rewrite <- app_assoc. apply A2; [rewrite E, app_assoc; reflexivity|]. apply Sk; [exact E|]. rewrite <- app_assoc. exact G.
Qed.
Lemma V_stale k del q g r s : V None k del q g r s -> pc stale_simple_keys (fun _ s' => V None k del q g r s' /\ exists ks, s' = set_simple_keys ks s) s.
Proof.
  intros X. unfold pc, stale_simple_keys. destruct (stale_keys (pos s) (simple_keys s)) as [ks [e|]] eqn:E; [exact Logic.I|]. split; [|eauto].
  eapply V_same; [exact X|reflexivity|apply rs_keys|reflexivity|reflexivity|]. apply (stale_keys_keys _ _ _ _ _ _ (v_keys _ _ _ _ _ _ _ X) E).
Qed.
Lemma V_remove k del q g r s : V None k del q g r s ->
  pc remove_simple_key (fun _ s' => V None k del q g r s' /\ exists ks, s' = set_simple_keys ks s) s.
Proof.
  intros X. unfold pc, remove_simple_key. pose proof (v_keys _ _ _ _ _ _ _ X) as K. destruct (simple_keys s) as [|k0 ks] eqn:E; [exact Logic.I|]. destruct (sk_possible k0 && sk_required k0); [exact Logic.I|]. split; [|eauto].
  eapply V_same; [exact X|reflexivity|apply rs_keys|reflexivity|reflexivity|]. cbn. apply keys_off, K.
Qed.
Lemma V_save k del q g r s : V None k del q g r s -> pc save_simple_key (fun _ s' => V (Some (position (q ++ g))) k del q g r s' /\ exists ks, s' = set_simple_keys ks s) s.
Proof.
  intros X. unfold save_simple_key. apply pc_bind, pc_get. cbv zeta. destruct (simple_key_allowed s).
  - eapply pc_seq; [apply (V_remove _ _ _ _ _ _ X)|]. cbn beta. intros _ s1 (X1 & ks1 & F1). assert (T1 : tokens s1 = tokens s) by (rewrite F1; reflexivity). assert (P1 : tokens_parsed s1 = tokens_parsed s) by (rewrite F1; reflexivity). unfold pc. pose proof (v_keys _ _ _ _ _ _ _ X1) as K. destruct (simple_keys s1) as [|k0 ks] eqn:E; [exact Logic.I|]. split; [|rewrite F1; eexists; reflexivity].
    destruct X1 as [A1 A2 A3 A4 A5 A6 A7]. constructor; auto; [apply rs_keys; exact A3| |intros m [= <-]; reflexivity]. change (tokens (set_simple_keys _ s1)) with (tokens s1).
    change (simple_keys (set_simple_keys ?l s1)) with l. rewrite (h_pos _ _ _ _ _ _ (v_H _ _ _ _ _ _ _ X)).
    assert (En : tokens_parsed s + N.of_nat (length (tokens s)) = N.of_nat (length (del ++ tokens s1))).
    { rewrite <- T1, <- P1, A4, app_length. lia. }
    rewrite En. eapply keys_save. exact K.
  - apply pc_ret. split; [|exists (simple_keys s); destruct s; reflexivity]. destruct X as [A1 A2 A3 A4 A5 A6 A7]. constructor; auto; [|intros m [= <-]; reflexivity]. destruct A5 as [A B]. split; [|exact B]. eapply Forall_impl; [|exact A]. intros y Y P. destruct (Y P) as [Z|[Z _]]; [auto|discriminate].
Qed.
(** A token of no width. *)
Lemma V_zero k del q g r s d : V None k del q g r s -> says d [] -> delimited (flow_level s) (q ++ g) d [] r -> (forall n, flow_depth n d = n) ->
  V None k del (q ++ g) [] r (set_tokens (tokens s ++ [Mk_token d (position (q ++ g)) (position (q ++ g))]) s).
Proof.
  intros [A1 A2 A3 A4 A5 A6 A7] Sd He Hz. constructor; auto.
  - change (tokens (set_tokens ?l s)) with l. rewrite app_assoc. eapply covers_app; [exact A1|].
    rewrite A7 in He. pose proof (covers_one T (depths 0 (del ++ tokens s)) q g [] r (Mk_token d (position (q ++ g)) (position (q ++ g)))) as C. cbn [app] in C. rewrite app_nil_r in C. apply C; auto.
    + rewrite (h_T _ _ _ _ _ _ A3), <- app_assoc. reflexivity.
    + apply (skips_gap _ _ _ _ A2).
    + left. auto.
  - apply skips_refl.
  - rewrite app_nil_r. apply rs_tokens, A3.
  - change (tokens (set_tokens ?l s)) with l. rewrite app_assoc. apply (keys_push _ _ None); [exact A5|discriminate].
  - discriminate.
  - change (tokens (set_tokens ?l s)) with l. change (flow_level (set_tokens _ s)) with (flow_level s). rewrite app_assoc, depths_app. unfold depths at 1. cbn [fold_left t_data]. rewrite Hz. exact A7.
Qed.
(** About to read the token [d]. *)
Record W (d : token_data) (pend : option mark) (k : nat) (del : list token) q g r (s : sst) : Prop := {
  w_cov : covers T 0 [] (del ++ tokens s) q;
  w_skips : skips q (g ++ r) g r;
  w_H : H k (q ++ g) r s;
  w_parsed : tokens_parsed s = N.of_nat (length del);
  w_keys : keys (del ++ tokens s) pend (simple_keys s);
  w_pend : forall m, pend = Some m -> m = position (q ++ g);
  w_depth : flow_level s = flow_depth (depths 0 (del ++ tokens s)) d }.
Lemma V_W d pend k del q g r s : V pend k del q g r s -> (forall n, flow_depth n d = n) -> W d pend k del q g r s.
Proof. intros [A1 A2 A3 A4 A5 A6 A7] E. constructor; auto. rewrite E. exact A7. Qed.
Lemma W_text k pend del q g g' w r r' s s' d t : W d pend k del q g r s -> says d w -> w <> [] -> r = w ++ g' ++ r' -> delimited (depths 0 (del ++ tokens s)) (q ++ g) d w (g' ++ r') ->
  skips (q ++ g ++ w) (g' ++ r') g' r' -> H 0 ((q ++ g ++ w) ++ g') r' s' -> same s s' -> t = Mk_token d (position (q ++ g)) (position (q ++ g ++ w)) ->
  V None 0 del (q ++ g ++ w) g' r' (set_tokens (tokens s' ++ [t]) s').
Proof.
  intros [A1 A2 A3 A4 A5 A6 A7] Sd Nw -> Hd Sk H1 S1 ->. destruct (same_fields _ _ S1) as (E1 & E2 & E3 & E4 & _).
  assert (Nd : ~ last_tokens d) by (intros [-> | ->]; inversion Sd; congruence).
  constructor.
  - change (tokens (set_tokens ?l s')) with l. rewrite E1, app_assoc. eapply covers_app; [exact A1|]. apply (covers_one T (depths 0 (del ++ tokens s)) q g w (g' ++ r')); auto.
    + rewrite (h_T _ _ _ _ _ _ A3), <- app_assoc. reflexivity.
    + apply (skips_gap _ _ _ _ A2).
    + left. auto.
  - exact Sk.
  - apply rs_tokens, H1.
  - exact (eq_trans E2 A4).
  - change (tokens (set_tokens ?l s')) with l. change (simple_keys (set_tokens _ s')) with (simple_keys s'). rewrite E1, E3, app_assoc. eapply keys_push; [exact A5|]. intros m E. cbn. rewrite (A6 m E). auto.
  - discriminate.
  - change (tokens (set_tokens ?l s')) with l. change (flow_level (set_tokens _ s')) with (flow_level s'). rewrite E1, E4, app_assoc, depths_app. exact A7.
Qed.

Lemma V_zeros k del q g r s t : V None k del q g r s -> t = Mk_token TBlockEnd (position (q ++ g)) (position (q ++ g)) ->
  forall n, exists q' g', q' ++ g' = q ++ g /\ V None k del q' g' r (set_tokens (tokens s ++ repeat t n) s).
Proof.
  intros X -> n. induction n as [|n (q' & g' & E & X')].
  - exists q, g. split; [reflexivity|]. cbn [repeat]. rewrite app_nil_r. eapply V_same; [exact X|reflexivity|apply rs_tokens|reflexivity|reflexivity|apply (v_keys _ _ _ _ _ _ _ X)].
  - exists (q ++ g), []. split; [apply app_nil_r|]. pose proof (V_zero _ _ _ _ _ _ TBlockEnd X' S_block_end Logic.I ltac:(reflexivity)) as Y. rewrite E in Y.
    set (t := Mk_token TBlockEnd (position (q ++ g)) (position (q ++ g))) in *. change (tokens (set_tokens ?l s)) with l in Y. rewrite <- app_assoc in Y.
    assert (Er : repeat t n ++ [t] = repeat t (S n)) by (clear; induction n; cbn; [reflexivity|f_equal; exact IHn]). rewrite Er in Y. exact Y.
Qed.
Lemma unroll_tokens c m : forall st ind toks i st' toks', unroll_go c ind st m toks = (None, i, st', toks') -> exists n, toks' = toks ++ repeat (Mk_token TBlockEnd m m) n.
Proof.
  induction st as [|j st IH]; intros ind toks i st' toks' E; cbn in E; destruct (c <? ind)%Z; try discriminate; try (injection E as <- <- <-; exists 0%nat; cbn; rewrite app_nil_r; reflexivity).
  destruct (IH _ _ _ _ _ E) as [n ->]. exists (S n). cbn [repeat]. rewrite <- app_assoc. reflexivity.
Qed.
Lemma V_unroll c k del q g r s : V None k del q g r s -> pc (unroll_indent c) (fun _ s' => exists q' g', q' ++ g' = q ++ g /\ V None k del q' g' r s' /\ keep s s') s.
Proof.
  intros X. unfold pc, unroll_indent. destruct (negb (flow_level s =? 0)); [exists q, g; unfold keep; auto|].
  destruct (unroll_go c (indent s) (indents s) (pos s) (tokens s)) as [[[o i] st] toks] eqn:E. destruct o; [exact Logic.I|].
  destruct (unroll_tokens _ _ _ _ _ _ _ _ E) as [n ->]. rewrite (h_pos _ _ _ _ _ _ (v_H _ _ _ _ _ _ _ X)).
  destruct (V_zeros _ _ _ _ _ _ _ X eq_refl n) as (q' & g' & Eq & Y). exists q', g'. split; [exact Eq|]. split; [|split; reflexivity].
  destruct Y as [A1 A2 A3 A4 A5 A6 A7]. constructor; auto. clear - A3. destruct A3 as [A1 A2 A3 A4 A5]. constructor; [exact A1|destruct A2; constructor; assumption|exact A3|exact A4|exact A5].
Qed.
Lemma V_roll c d k del q g r s : V None k del q g r s -> says d [] -> (forall n p r, delimited n p d [] r /\ flow_depth n d = n) ->
  pc (roll_indent c None d (pos s)) (fun _ s' => exists q' g', q' ++ g' = q ++ g /\ V None k del q' g' r s' /\ keep s s') s.
Proof.
  intros X Sd Nd. unfold roll_indent. apply pc_bind, pc_get. destruct (negb (flow_level s =? 0)); [apply pc_ret; exists q, g; unfold keep; auto|].
  destruct (indent s <? c)%Z; [|apply pc_ret; exists q, g; unfold keep; auto]. apply pc_bind, pc_modify. apply pc_bind. destruct (c <=? 2147483647)%Z; [apply pc_ret|apply pc_panics].
  apply pc_bind, pc_modify. unfold push_token. apply pc_modify. exists (q ++ g), []. split; [apply app_nil_r|]. split; [|split; reflexivity].
  rewrite (h_pos _ _ _ _ _ _ (v_H _ _ _ _ _ _ _ X)). pose proof (V_zero _ _ _ _ _ _ d X Sd (proj1 (Nd _ _ _)) (fun n => proj2 (Nd n [] []))) as Y.
  destruct Y as [A1 A2 A3 A4 A5 A6 A7]. constructor; auto. clear - A3. destruct A3 as [A1 A2 A3 A4 A5]. constructor; [exact A1|destruct A2; constructor; assumption|exact A3|exact A4|exact A5].
Qed.
Lemma W_indicator w d pend k del q g r s : W d pend k del q g (w ++ r) s -> says d w -> Forall (fun c => breaks_line c = false) w -> w <> [] -> delimited (depths 0 (del ++ tokens s)) (q ++ g) d w r ->
  pc (fetch_indicator (length w) d) (fun _ s' => V None 0 del (q ++ g ++ w) [] r s') s.
Proof.
  intros X Sd F N Hd. unfold fetch_indicator. apply pc_bind, pc_gets. eapply pc_seq; [apply (L_skips _ _ w _ _ _ _ (w_H _ _ _ _ _ _ _ _ X) F)|]. cbn beta. intros _ s1 (H1 & S1).
  apply pc_bind, pc_gets. unfold push_token. apply pc_modify. rewrite (h_pos _ _ _ _ _ _ H1), (h_pos _ _ _ _ _ _ (w_H _ _ _ _ _ _ _ _ X)). rewrite <- app_assoc.
  eapply (W_text _ _ _ _ _ [] _ _ r _ _ _ _ X Sd N); [reflexivity|exact Hd|apply skips_refl| |exact S1|reflexivity]. rewrite app_nil_r, app_assoc. eapply H_less; [|exact H1]; lia.
Qed.
Lemma V_scanned m pend k del q g r s : V pend k del q g r s -> pc m (fun t s' => scanned rest T (q ++ g) r s t s' /\ forall n, flow_depth n (t_data t) = n) s ->
  pc (push_scanned m) (fun _ s' => exists q' g' r', V None 0 del q' g' r' s') s.
Proof.
  intros X Hm. unfold push_scanned. eapply pc_seq; [exact Hm|]. cbn beta. intros [d a b] s1 ((w & g' & r' & E0 & Nw & Sw & E1 & E2 & Sk & H1 & S1 & Hd) & Hf). cbn [t_data t_start t_end] in *. apply pc_modify.
  exists (q ++ g ++ w), g', r'. pose proof (v_depth _ _ _ _ _ _ _ X) as Dp. rewrite Dp in Hd.
  assert (Eq : (q ++ g) ++ w = q ++ g ++ w) by (rewrite <- app_assoc; reflexivity). rewrite Eq in E2, Sk.
  eapply (W_text _ _ _ _ _ g' w r r' _ _ _ _ (V_W _ _ _ _ _ _ _ _ X Hf) Sw Nw E0 Hd Sk); [|exact S1|rewrite E1, E2; reflexivity].
  assert (Eq2 : (q ++ g) ++ w ++ g' = (q ++ g ++ w) ++ g') by (rewrite <- !app_assoc; reflexivity). rewrite <- Eq2. exact H1.
Qed.

(** Insertion before the token of a simple key. *)
Lemma L_insert n t s del : tokens_parsed s = N.of_nat (length del) ->
  pc (insert_token n t) (fun _ s' => exists l1 l2 l, del ++ tokens s = l1 ++ l2 /\ N.of_nat (length l1) = n /\ s' = set_tokens l s /\ del ++ l = l1 ++ t :: l2) s.
Proof.
  intros E. unfold pc, insert_token. destruct (n <? tokens_parsed s) eqn:E1; [exact Logic.I|]. destruct (Nat.leb _ _) eqn:E2; [|exact Logic.I]. apply Nat.leb_le in E2.
  set (k := N.to_nat (n - tokens_parsed s)) in *. exists (del ++ firstn k (tokens s)), (skipn k (tokens s)), (firstn k (tokens s) ++ t :: skipn k (tokens s)).
  rewrite <- !app_assoc, firstn_skipn. split; [reflexivity|]. split; [rewrite app_length, firstn_length; lia|]. auto.
Qed.
Lemma app_same_length {A} (a b c d : list A) : a ++ b = c ++ d -> length a = length c -> a = c /\ b = d.
Proof.
  revert c. induction a as [|x a IH]; intros [|y c] E L; try discriminate L; [auto|]. cbn in E. injection E as -> E. injection L as L. destruct (IH c E L) as [-> ->]. auto.
Qed.
Lemma V_key k del q g r s k0 ks c : V None k del q g r s -> simple_keys s = k0 :: ks -> sk_possible k0 = true ->
  pc (insert_token (sk_token k0) (Mk_token TKey (sk_mark k0) (sk_mark k0)) ;;
      modify (set_simple_keys (sk_off k0 :: ks)) ;;
      roll_indent c (Some (sk_token k0)) TBlockMappingStart (sk_mark k0) ;;
      modify (set_simple_key_allowed false)) (fun _ s' => V None k del q g r s' /\ flow_level s' = flow_level s) s.
Proof.
  intros X Ek Pk. eapply pc_seq; [apply (L_insert _ _ _ _ (v_parsed _ _ _ _ _ _ _ X))|]. cbn beta. intros _ s1 (l1 & l2 & l & E1 & E2 & -> & E4). apply pc_bind, pc_modify.
  pose proof (v_keys _ _ _ _ _ _ _ X) as K. rewrite Ek in K. pose proof (proj1 K) as K1. apply Forall_inv in K1. destruct (K1 Pk) as [(t & Nt & St & Lt)|[Z _]]; [|discriminate].
  rewrite E1 in Nt. rewrite nth_error_app2 in Nt by lia. replace (N.to_nat (sk_token k0) - length l1)%nat with 0%nat in Nt by lia. destruct l2 as [|t' l2]; [discriminate|]. injection Nt as ->.
  set (K0 := Mk_token TKey (sk_mark k0) (sk_mark k0)) in *.
  assert (Lt' : Forall (fun y => sk_possible y = true -> sk_token y < N.of_nat (length l1)) ks).
  { destruct K as [_ B]. inversion B as [|? ? B1 B2]; subst. eapply Forall_impl; [|exact B1]. intros y Y Py. specialize (Y Pk Py). lia. }
  set (s2 := set_simple_keys (sk_off k0 :: ks) (set_tokens l s)).
  assert (X2 : V None k del q g r s2).
  { destruct X as [A1 A2 A3 A4 A5 A6 A7]. constructor; auto.
    - change (tokens s2) with l. rewrite E4. rewrite E1 in A1. unfold K0. rewrite <- St. apply covers_insert; auto; [constructor|]. intros; split; [intros Z; contradiction|reflexivity].
    - apply rs_keys, rs_tokens, A3.
    - change (tokens s2) with l. change (simple_keys s2) with (sk_off k0 :: ks). rewrite E4. rewrite E1 in K. apply (keys_insert l1 K0 (t :: l2) k0 ks); auto.
    - change (tokens s2) with l. change (flow_level s2) with (flow_level s). rewrite E4, A7, E1, !depths_app. reflexivity. }
  assert (E5 : del ++ tokens s2 = l1 ++ K0 :: t :: l2) by exact E4. assert (Ks : simple_keys s2 = sk_off k0 :: ks) by reflexivity. assert (Fl : flow_level s2 = flow_level s) by reflexivity. clearbody s2. clear X K E4 E1. apply pc_bind.
  assert (Fin : forall s', V None k del q g r s' -> flow_level s' = flow_level s -> pc (modify (set_simple_key_allowed false)) (fun _ s' => V None k del q g r s' /\ flow_level s' = flow_level s) s') by (intros s' X F; apply pc_modify; split; [apply V_allowed, X|exact F]).
  unfold roll_indent. apply pc_bind, pc_get.
  destruct (negb (flow_level s2 =? 0)); [apply pc_ret, (Fin _ X2 Fl)|].
  destruct (indent s2 <? c)%Z; [|apply pc_ret, (Fin _ X2 Fl)]. apply pc_bind, pc_modify. apply pc_bind. destruct (c <=? 2147483647)%Z; [apply pc_ret|apply pc_panics]. apply pc_bind, pc_modify.
  eapply pc_conseq; [eapply (L_insert _ _ _ del); exact (v_parsed _ _ _ _ _ _ _ X2)|].
  cbn beta. intros _ s3 (m1 & m2 & m & D1 & D2 & -> & D4). apply Fin; [|exact Fl].
  assert (D5 : m1 ++ m2 = l1 ++ K0 :: t :: l2) by (rewrite <- E5; symmetry; exact D1).
  destruct (app_same_length _ _ _ _ D5 ltac:(lia)) as [-> ->]. clear D5 D1 D2.
  destruct X2 as [A1 A2 A3 A4 A5 A6 A7]. rewrite E5 in A1, A5. rewrite Ks in A5. constructor.
  - change (tokens (set_tokens m _)) with m. rewrite D4. apply (covers_insert T 0 [] l1 K0 (t :: l2) q TBlockMappingStart A1); [intros [Z|Z]; discriminate Z|constructor|split; [exact Logic.I|reflexivity]].
  - exact A2.
  - apply rs_tokens, rs_indent, rs_indents, A3.
  - exact A4.
  - change (tokens (set_tokens m _)) with m. rewrite D4. change (simple_keys (set_tokens m _)) with (simple_keys s2). rewrite Ks. apply keys_insert_off; assumption.
  - discriminate.
  - change (tokens (set_tokens m _)) with m. change (flow_level (set_tokens m _)) with (flow_level s2). rewrite D4, A7, E5, !depths_app. reflexivity.
Qed.
End text.
