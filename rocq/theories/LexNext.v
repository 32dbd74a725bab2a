(** LexNext.v -- fetching a token keeps the text covered. *)
From Coq Require Import Lia ZifyBool ZifyNat ZifyN Bool.
From Verif Require Import Base Utf Chars State Reader Scanner Wp ReaderFacts ReadFacts ScanFacts Spec_Lexical LexBase LexScan LexNames LexQuoted LexPlain LexBlock LexFetch LexQueue.
Open Scope N_scope.

Section text.
Variable rest : list byte.
Variable T : str.
Notation H := (H rest T).
Notation V := (V rest T).
Implicit Types q g r w : str.

(** At the end of the text, on a fresh line. *)
Record E (del : list token) q g (s : sst) : Prop := {
  e_T : T = q ++ g;
  e_cov : covers T 0 [] (del ++ tokens s) q;
  e_skips : skips q g g [];
  e_text : text rest [] s;
  e_pos : pos s = next_line_start (position T);
  e_parsed : tokens_parsed s = N.of_nat (length del);
  e_keys : keys (del ++ tokens s) None (simple_keys s);
  e_start : stream_start_produced s = true;
  e_depth : flow_level s = depths 0 (del ++ tokens s) }.
Definition G (del : list token) (s : sst) : Prop := (exists q g r, V None 0 del q g r s) \/ (exists q g, E del q g s).
Lemma G_V k del q g r s : V None k del q g r s -> G del s.
Proof. intros X. left. exists q, g, r. eapply V_less; [|exact X]. lia. Qed.

Lemma V_head pend k del q g r s c : V pend k del q g r s -> bget 0 s = Some c -> exists r', r = c :: r'.
Proof. intros X Hb. apply (H_head _ _ _ _ _ _ _ (v_H _ _ _ _ _ _ _ _ _ X) Hb). Qed.
Lemma V_none pend k del q g r s : V pend k del q g r s -> (1 <= k)%nat -> bget 0 s = None -> r = [].
Proof. intros X L Hb. rewrite (H_get _ _ _ _ _ _ 0 (v_H _ _ _ _ _ _ _ _ _ X) ltac:(lia)) in Hb. destruct r; [reflexivity|discriminate]. Qed.

(** ** The end of the text *)
Lemma E_push del q g s d : E del q g s -> says d [] -> last_tokens d ->
  E del T [] (set_tokens (tokens s ++ [Mk_token d (pos s) (pos s)]) s).
Proof.
  intros [A1 A2 A3 A4 A5 A6 A7 A8 A9] Sd Ld. constructor; auto.
  - symmetry. apply app_nil_r.
  - change (tokens (set_tokens ?l s)) with l. rewrite app_assoc. eapply covers_app; [exact A2|].
    assert (Eq : q ++ g ++ [] = T) by (rewrite app_nil_r; symmetry; exact A1).
    pose proof (covers_one T (depths 0 (del ++ tokens s)) q g [] [] (Mk_token d (pos s) (pos s))) as C. rewrite Eq in C. apply C; auto.
    + apply (skips_gap _ _ _ _ A3).
    + right. rewrite <- A1. cbn. auto.
    + destruct Ld as [-> | ->]; [exact Logic.I|reflexivity].
  - apply skips_refl.
  - destruct A4. constructor; assumption.
  - change (tokens (set_tokens ?l s)) with l. rewrite app_assoc. apply (keys_push _ _ None); [exact A7|discriminate].
  - change (tokens (set_tokens ?l s)) with l. rewrite app_assoc, depths_app. change (flow_level s = flow_depth (depths 0 (del ++ tokens s)) d). rewrite A9. destruct Ld as [-> | ->]; reflexivity.
Qed.
Lemma E_other del q g s s' : E del q g s -> flow_level s' = flow_level s -> (text rest [] s -> text rest [] s') -> tokens s' = tokens s -> pos s' = pos s -> tokens_parsed s' = tokens_parsed s -> stream_start_produced s' = stream_start_produced s ->
  keys (del ++ tokens s) None (simple_keys s') -> E del q g s'.
Proof. intros [A1 A2 A3 A4 A5 A6 A7 A8 A9] F0 F1 F2 F3 F4 F5 F6. constructor; rewrite ?F0, ?F2, ?F3, ?F4, ?F5; auto. Qed.
Lemma tx_keys l s : text rest [] s -> text rest [] (set_simple_keys l s). Proof. intros []. constructor; assumption. Qed.
Lemma E_stale del q g s : E del q g s -> pc stale_simple_keys (fun _ s' => E del q g s') s.
Proof.
  intros X. unfold pc, stale_simple_keys. destruct (stale_keys (pos s) (simple_keys s)) as [ks [e|]] eqn:Ek; [exact Logic.I|].
  eapply E_other; [exact X|reflexivity|apply tx_keys|reflexivity..|]. apply (stale_keys_keys _ _ _ _ _ _ (e_keys _ _ _ _ X) Ek).
Qed.
Lemma E_remove del q g s : E del q g s -> pc remove_simple_key (fun _ s' => E del q g s') s.
Proof.
  intros X. unfold pc, remove_simple_key. pose proof (e_keys _ _ _ _ X) as K. destruct (simple_keys s) as [|k0 ks] eqn:Ek; [exact Logic.I|]. destruct (sk_possible k0 && sk_required k0); [exact Logic.I|].
  eapply E_other; [exact X|reflexivity|apply tx_keys|reflexivity..|]. apply keys_off, K.
Qed.
Lemma E_blocks del q g s n : E del q g s -> exists q' g', E del q' g' (set_tokens (tokens s ++ repeat (Mk_token TBlockEnd (pos s) (pos s)) n) s).
Proof.
  intros X. induction n as [|n (q' & g' & Y)].
  - exists q, g. cbn [repeat]. rewrite app_nil_r. eapply E_other; [exact X|reflexivity|intros []; constructor; assumption|reflexivity..|apply (e_keys _ _ _ _ X)].
  - exists T, []. pose proof (E_push _ _ _ _ _ Y S_block_end (or_introl eq_refl)) as Z. change (pos (set_tokens ?l s)) with (pos s) in Z. set (t := Mk_token TBlockEnd (pos s) (pos s)) in *.
    change (tokens (set_tokens ?l s)) with l in Z. rewrite <- app_assoc in Z.
    assert (Er : repeat t n ++ [t] = repeat t (S n)) by (clear; induction n; cbn; [reflexivity|f_equal; exact IHn]). rewrite Er in Z. exact Z.
Qed.
Lemma E_unroll c del q g s : E del q g s -> pc (unroll_indent c) (fun _ s' => exists q' g', E del q' g' s') s.
Proof.
  intros X. unfold pc, unroll_indent. destruct (negb (flow_level s =? 0)); [exists q, g; auto|].
  destruct (unroll_go c (indent s) (indents s) (pos s) (tokens s)) as [[[o i] st] toks] eqn:Eu. destruct o; [exact Logic.I|].
  destruct (unroll_tokens _ _ _ _ _ _ _ _ Eu) as [n ->]. destruct (E_blocks _ _ _ _ n X) as (q' & g' & Y). exists q', g'.
  eapply E_other; [exact Y|reflexivity|intros []; constructor; assumption|reflexivity..|apply (e_keys _ _ _ _ Y)].
Qed.
Lemma E_end del q g s : E del q g s -> pc fetch_stream_end (fun _ s' => G del s') s.
Proof.
  intros X. unfold fetch_stream_end. apply pc_bind, pc_modify. rewrite (e_pos _ _ _ _ X). cbn [next_line_start m_col N.eqb].
  eapply pc_seq; [apply (E_unroll _ _ _ _ _ X)|]. cbn beta. intros _ s1 (q1 & g1 & X1).
  eapply pc_seq; [apply (E_remove _ _ _ _ X1)|]. cbn beta. intros _ s2 X2. apply pc_bind, pc_modify. apply pc_bind, pc_gets. unfold push_token. apply pc_modify. right. exists T, [].
  apply E_push with q1 g1; [|constructor|right; reflexivity]. eapply E_other; [exact X2|reflexivity|intros []; constructor; assumption|reflexivity..|apply (e_keys _ _ _ _ X2)].
Qed.
Lemma V_end k del q g s : V None k del q g [] s -> stream_start_produced s = true -> pc fetch_stream_end (fun _ s' => G del s') s.
Proof.
  intros X Hs. destruct (m_col (pos s) =? 0) eqn:Ec.
  - unfold fetch_stream_end. apply pc_bind, pc_modify. rewrite Ec.
    eapply pc_seq; [apply (V_unroll _ _ _ _ _ _ _ _ _ X)|]. cbn beta. intros _ s1 (q1 & g1 & _ & X1 & _).
    eapply pc_seq; [apply (V_remove _ _ _ _ _ _ _ _ X1)|]. cbn beta. intros _ s2 (X2 & _). apply pc_bind, pc_modify. apply pc_bind, pc_gets. unfold push_token. apply pc_modify.
    pose proof (V_allowed _ _ _ _ _ _ _ _ false _ X2) as X3. apply G_V with k (q1 ++ g1) [] []. rewrite (h_pos _ _ _ _ _ _ (v_H _ _ _ _ _ _ _ _ _ X3)). apply V_zero; [exact X3|constructor|reflexivity|reflexivity].
  - assert (X' : E del q g (set_pos (next_line_start (pos s)) s)).
    { destruct X as [A1 A2 A3 A4 A5 A6 A0]. pose proof (h_T _ _ _ _ _ _ A3) as ET. rewrite app_nil_r in ET. constructor; auto.
      - rewrite app_nil_r in A2. exact A2.
      - pose proof (h_text _ _ _ _ _ _ A3) as []. constructor; assumption.
      - cbn [pos set_pos]. rewrite (h_pos _ _ _ _ _ _ A3), ET. reflexivity. }
    pose proof (E_end _ _ _ _ X') as P. unfold fetch_stream_end in P |- *. unfold pc, bind, modify in P |- *. rewrite Ec. exact P.
Qed.

(** ** The branches *)
Lemma V_start k del q g r s : V None k del q g r s -> (1 <= k)%nat -> pc fetch_stream_start (fun _ s' => G del s') s.
Proof.
  intros X Lk. unfold fetch_stream_start. apply pc_modify. cbv zeta. apply G_V with k (q ++ g) [] r.
  assert (En : enc s = Utf8 \/ enc s = EncAny /\ r = []).
  { pose proof (v_H _ _ _ _ _ _ _ _ _ X) as Hh. destruct (tx_bytes _ _ _ (h_text _ _ _ _ _ _ Hh)) as [(Eu & _)|(Ea & _ & Eb & _)]; [left; exact Eu|]. right. split; [exact Ea|].
    destruct (h_full _ _ _ _ _ _ Hh) as [L|[L _]]; [rewrite Eb in L; cbn in L; clear - L Lk; lia|]. rewrite <- L. exact Eb. }
  set (s1 := set_stream_start_produced true _).
  assert (X1 : V None k del q g r s1).
  { destruct X as [A1 A2 A3 A4 A5 A6 A0]. constructor; auto; [|apply keys_false, A5].
    destruct A3 as [B1 B2 B3 B4 B5]. constructor; [exact B1|destruct B2; constructor; assumption|exact B3|exact B4|exact B5]. }
  change (enc s) with (enc s1) in En. clearbody s1. rewrite (h_pos _ _ _ _ _ _ (v_H _ _ _ _ _ _ _ _ _ X1)). apply V_zero; [exact X1|constructor|exact En|reflexivity].
Qed.
Lemma one c : breaks_line c = false -> Forall (fun c => breaks_line c = false) [c]. Proof. auto. Qed.
Lemma W_ind1 c d pend k del q g r s : W rest T d pend k del q g (c :: r) s -> says d [c] -> breaks_line c = false -> delimited (depths 0 (del ++ tokens s)) (q ++ g) d [c] r -> pc (fetch_indicator 1 d) (fun _ s' => G del s') s.
Proof.
  intros X Sd Hc Hd. eapply pc_conseq; [apply (W_indicator _ _ [c] d _ _ _ _ _ _ _ X Sd (one _ Hc)); [discriminate|exact Hd]|]. cbn beta. intros _ s' Y. apply G_V in Y. exact Y.
Qed.
Lemma V_ind1 c d pend k del q g r s : V pend k del q g (c :: r) s -> says d [c] -> breaks_line c = false -> (forall n, flow_depth n d = n) -> delimited (flow_level s) (q ++ g) d [c] r -> pc (fetch_indicator 1 d) (fun _ s' => G del s') s.
Proof.
  intros X Sd Hc Hn Hd. eapply W_ind1; [apply V_W; [exact X|exact Hn]|exact Sd|exact Hc|]. rewrite <- (v_depth _ _ _ _ _ _ _ _ _ X). exact Hd.
Qed.
Lemma V_document c d k del q g r s : V None k del q g (c :: c :: c :: r) s -> says d [c; c; c] -> breaks_line c = false -> (forall n, flow_depth n d = n) -> (forall n, delimited n (q ++ g) d [c; c; c] r) -> pc (fetch_document_indicator d) (fun _ s' => G del s') s.
Proof.
  intros X Sd Hc Hn Hd. unfold fetch_document_indicator.
  eapply pc_seq; [apply (V_unroll _ _ _ _ _ _ _ _ _ X)|]. cbn beta. intros _ s1 (q1 & g1 & Eq & X1 & _).
  eapply pc_seq; [apply (V_remove _ _ _ _ _ _ _ _ X1)|]. cbn beta. intros _ s2 (X2 & _). apply pc_bind, pc_modify.
  eapply pc_conseq; [apply (W_indicator _ _ [c; c; c] d _ _ _ _ _ r _ (V_W _ _ _ _ _ _ _ _ _ _ (V_allowed _ _ _ _ _ _ _ _ false _ X2) Hn) Sd); [repeat constructor; exact Hc|discriminate|]|].
  - rewrite Eq. apply Hd.
  - cbn beta. intros _ s' Y. apply G_V in Y. exact Y.
Qed.
Lemma says_flow d w : says d w -> (forall n, flow_depth n d = n) \/ w = [91] \/ w = [93] \/ w = [123] \/ w = [125].
Proof. intros Sd. destruct Sd; auto; left; reflexivity. Qed.
Lemma scanned_flow p c r s t s' : scanned rest T p (c :: r) s t s' -> flow_indicator c = false -> forall n, flow_depth n (t_data t) = n.
Proof.
  intros (w & g & r' & Ew & Nw & Sw & _) Hc. destruct (says_flow _ _ Sw) as [F|F]; [exact F|]. exfalso. clear - Ew F Hc.
  destruct F as [-> |[-> |[-> | ->]]]; injection Ew as -> _; discriminate Hc.
Qed.
Lemma V_directive k del q g r s : V None k del q g r s -> m_col (position (q ++ g)) = 0 -> bget 0 s = Some 37 -> pc fetch_directive (fun _ s' => G del s') s.
Proof.
  intros X H0 Hb. unfold fetch_directive. destruct (V_head _ _ _ _ _ _ _ _ X Hb) as [r' ->].
  assert (Hb' : forall s', buffer s' = buffer s -> bget 0 s' = Some 37) by (intros s' Eb; unfold bget; rewrite Eb; exact Hb).
  assert (Bu : forall c, match unroll_indent c s with (Ok _, s') => buffer s' = buffer s | _ => True end).
  { intros c. unfold unroll_indent. destruct (negb (flow_level s =? 0)); [reflexivity|]. destruct (unroll_go _ _ _ _ _) as [[[[p|] i] st] toks]; [exact Logic.I|reflexivity]. }
  pose proof (V_unroll _ _ (-1)%Z _ _ _ _ _ _ X) as P. specialize (Bu (-1)%Z). apply pc_bind. unfold pc at 1. unfold pc in P. destruct (unroll_indent (-1)%Z s) as [[u| | |] s1]; try exact Logic.I. destruct P as (q1 & g1 & Eq & X1 & _).
  eapply pc_seq; [apply (V_remove _ _ _ _ _ _ _ _ X1)|]. cbn beta. intros _ s2 (X2 & ks & E2). apply pc_bind, pc_modify.
  pose proof (V_allowed _ _ _ _ _ _ _ _ false _ X2) as X3.
  eapply pc_conseq; [apply (V_scanned _ _ scan_directive _ _ _ _ _ _ _ X3)|].
  - eapply pc_conseq; [apply (L_directive _ _ _ _ _ _ (v_H _ _ _ _ _ _ _ _ _ X3)); [rewrite Eq; exact H0|]|].
    + apply Hb'. rewrite E2. exact Bu.
    + cbn beta. intros t s' Y. split; [exact Y|apply (scanned_flow _ _ _ _ _ _ Y eq_refl)].
  - cbn beta. intros _ s' Y. left. exact Y.
Qed.
Lemma V_flow_start c d k del q g r s : V None k del q g (c :: r) s -> says d [c] -> breaks_line c = false -> (forall n p w r, flow_depth n d = n + 1 /\ delimited n p d w r) -> pc (fetch_flow_collection_start d) (fun _ s' => G del s') s.
Proof.
  intros X Sd Hc Hd. unfold fetch_flow_collection_start.
  eapply pc_seq; [apply (V_save _ _ _ _ _ _ _ _ X)|]. cbn beta. intros _ s1 (X1 & _). apply pc_bind. unfold increase_flow_level. apply pc_bind, pc_modify. apply pc_bind, pc_gets.
  destruct (_ =? _); [apply pc_panics|]. apply pc_modify. apply pc_bind, pc_modify. eapply W_ind1; [|exact Sd|exact Hc|apply (Hd _ _ _ _)].
  destruct X1 as [A1 A2 A3 A4 A5 A6 A0]. constructor; [exact A1|exact A2| |exact A4|apply keys_false, A5|exact A6|].
  - destruct A3 as [B1 B2 B3 B4 B5]. constructor; [exact B1|destruct B2; constructor; assumption|exact B3|exact B4|exact B5].
  - rewrite (proj1 (Hd _ [] [] [])). change (flow_level s1 + 1 = depths 0 (del ++ tokens s1) + 1). rewrite A0. reflexivity.
Qed.
Lemma V_flow_end c d k del q g r s : V None k del q g (c :: r) s -> says d [c] -> breaks_line c = false -> (forall n p w r, flow_depth n d = N.pred n /\ delimited n p d w r) -> pc (fetch_flow_collection_end d) (fun _ s' => G del s') s.
Proof.
  intros X Sd Hc Hd. unfold fetch_flow_collection_end.
  eapply pc_seq; [apply (V_remove _ _ _ _ _ _ _ _ X)|]. cbn beta. intros _ s1 (X1 & _). apply pc_bind. unfold decrease_flow_level. apply pc_modify. apply pc_bind, pc_modify. eapply W_ind1; [|exact Sd|exact Hc|apply (Hd _ _ _ _)].
  destruct X1 as [A1 A2 A3 A4 A5 A6 A0]. destruct (flow_level s1 =? 0) eqn:Ef.
  - constructor; [exact A1|exact A2| |exact A4|exact A5|exact A6|].
    + destruct A3 as [B1 B2 B3 B4 B5]. constructor; [exact B1|destruct B2; constructor; assumption|exact B3|exact B4|exact B5].
    + rewrite (proj1 (Hd _ [] [] [])). change (flow_level s1 = N.pred (depths 0 (del ++ tokens s1))). rewrite <- A0. apply N.eqb_eq in Ef. rewrite Ef. reflexivity.
  - constructor; [exact A1|exact A2| |exact A4|apply keys_tl, A5|exact A6|].
    + destruct A3 as [B1 B2 B3 B4 B5]. constructor; [exact B1|destruct B2; constructor; assumption|exact B3|exact B4|exact B5].
    + rewrite (proj1 (Hd _ [] [] [])). cbn [flow_level tokens set_simple_key_allowed set_simple_keys set_flow_level]. rewrite <- A0. clear. lia.
Qed.
Lemma V_flow_entry k del q g r s : V None k del q g (44 :: r) s -> pc fetch_flow_entry (fun _ s' => G del s') s.
Proof.
  intros X. unfold fetch_flow_entry. eapply pc_seq; [apply (V_remove _ _ _ _ _ _ _ _ X)|]. cbn beta. intros _ s1 (X1 & _). apply pc_bind, pc_modify.
  eapply V_ind1; [apply V_allowed, X1|constructor|reflexivity|reflexivity|exact Logic.I].
Qed.
Lemma V_roll_if f e c d k del q g r s : V None k del q g r s -> says d [] -> (forall n p r, delimited n p d [] r /\ flow_depth n d = n) ->
  pc (if f : bool then if e : bool then @scan_error unit "" (pos s) c else roll_indent (bcol s) None d (pos s) else ret tt) (fun _ s' => exists q' g', V None k del q' g' r s' /\ flow_level s' = flow_level s) s.
Proof.
  intros X Sd Nd. destruct f; [|apply pc_ret; eauto]. destruct e; [apply pc_error|]. eapply pc_conseq; [apply (V_roll _ _ _ _ _ _ _ _ _ _ X Sd Nd)|]. cbn beta. intros _ s' (q' & g' & _ & Y & K & _). eauto.
Qed.
Lemma V_block_entry k del q g r s : V None k del q g (45 :: r) s -> ends filler r -> pc fetch_block_entry (fun _ s' => G del s') s.
Proof.
  intros X He. unfold fetch_block_entry. apply pc_bind, pc_get. eapply pc_seq; [apply (V_roll_if _ _ _ _ _ _ _ _ _ _ X); [constructor|split; [exact Logic.I|reflexivity]]|].
  cbn beta. intros _ s1 (q1 & g1 & X1 & _). eapply pc_seq; [apply (V_remove _ _ _ _ _ _ _ _ X1)|]. cbn beta. intros _ s2 (X2 & _). apply pc_bind, pc_modify.
  eapply V_ind1; [apply V_allowed, X2|constructor|reflexivity|reflexivity|exact He].
Qed.
Lemma V_fetch_key k del q g r s : V None k del q g (63 :: r) s -> (flow_level s = 0 -> ends filler r) -> pc fetch_key (fun _ s' => G del s') s.
Proof.
  intros X He. unfold fetch_key. apply pc_bind, pc_get. eapply pc_seq; [apply (V_roll_if _ _ _ _ _ _ _ _ _ _ X); [constructor|split; [exact Logic.I|reflexivity]]|].
  cbn beta. intros _ s1 (q1 & g1 & X1 & F1). eapply pc_seq; [apply (V_remove _ _ _ _ _ _ _ _ X1)|]. cbn beta. intros _ s2 (X2 & ks & E2). apply pc_bind, pc_modify.
  eapply V_ind1; [apply V_allowed, X2|constructor|reflexivity|reflexivity|]. intros _ Z. apply He. rewrite <- F1. rewrite E2 in Z. exact Z.
Qed.
Lemma V_value k del q g r s : V None k del q g (58 :: r) s -> (flow_level s = 0 -> ends filler r) -> pc fetch_value (fun _ s' => G del s') s.
Proof.
  intros X He. unfold fetch_value. apply pc_bind, pc_get. destruct (simple_keys s) as [|k0 ks] eqn:Ek; [apply pc_panics|]. apply pc_bind. destruct (sk_possible k0) eqn:Pk.
  - eapply pc_conseq; [apply (V_key _ _ _ _ _ _ _ _ _ _ _ X Ek Pk)|]. cbn beta. intros _ s1 (X1 & F1). eapply V_ind1; [exact X1|constructor|reflexivity|reflexivity|].
    intros _ Z. apply He. rewrite <- F1. exact Z.
  - eapply pc_seq; [apply (V_roll_if _ _ _ _ _ _ _ _ _ _ X); [constructor|split; [exact Logic.I|reflexivity]]|].
    cbn beta. intros _ s1 (q1 & g1 & X1 & F1). apply pc_modify. eapply V_ind1; [apply V_allowed, X1|constructor|reflexivity|reflexivity|].
    intros _ Z. apply He. rewrite <- F1. exact Z.
Qed.
Lemma V_saved b m k del q g c r s : V None k del q g (c :: r) s -> flow_indicator c = false ->
  (forall s' ks, H k (q ++ g) (c :: r) s' -> s' = set_simple_key_allowed b (set_simple_keys ks s) -> pc m (scanned rest T (q ++ g) (c :: r) s') s') ->
  pc (save_simple_key ;; modify (set_simple_key_allowed b) ;; push_scanned m) (fun _ s' => G del s') s.
Proof.
  intros X Hc Hm. eapply pc_seq; [apply (V_save _ _ _ _ _ _ _ _ X)|]. cbn beta. intros _ s1 (X1 & ks & E1). apply pc_bind, pc_modify. pose proof (V_allowed _ _ _ _ _ _ _ _ b _ X1) as X2.
  eapply pc_conseq; [apply (V_scanned _ _ m _ _ _ _ _ _ _ X2)|cbn beta; intros _ s' Y; left; exact Y].
  eapply pc_conseq; [apply Hm with ks; [apply (v_H _ _ _ _ _ _ _ _ _ X2)|rewrite E1; reflexivity]|]. cbn beta. intros t s' Y. split; [exact Y|apply (scanned_flow _ _ _ _ _ _ Y Hc)].
Qed.
Lemma V_removed b m k del q g c r s : V None k del q g (c :: r) s -> flow_indicator c = false ->
  (forall s' ks, H k (q ++ g) (c :: r) s' -> s' = set_simple_key_allowed b (set_simple_keys ks s) -> pc m (scanned rest T (q ++ g) (c :: r) s') s') ->
  pc (remove_simple_key ;; modify (set_simple_key_allowed b) ;; push_scanned m) (fun _ s' => G del s') s.
Proof.
  intros X Hc Hm. eapply pc_seq; [apply (V_remove _ _ _ _ _ _ _ _ X)|]. cbn beta. intros _ s1 (X1 & ks & E1). apply pc_bind, pc_modify. pose proof (V_allowed _ _ _ _ _ _ _ _ b _ X1) as X2.
  eapply pc_conseq; [apply (V_scanned _ _ m _ _ _ _ _ _ _ X2)|cbn beta; intros _ s' Y; left; exact Y].
  eapply pc_conseq; [apply Hm with ks; [apply (v_H _ _ _ _ _ _ _ _ _ X2)|rewrite E1; reflexivity]|]. cbn beta. intros t s' Y. split; [exact Y|apply (scanned_flow _ _ _ _ _ _ Y Hc)].
Qed.
Lemma blankz_nth k p r s i : H k p r s -> (i < k)%nat -> is_blankz (bget i s) = true -> ends filler (skipn i r).
Proof.
  intros Hh L Eb. rewrite (H_get _ _ _ _ _ _ _ Hh L) in Eb. clear - Eb. revert i Eb. induction r as [|c r IH]; intros [|i] Eb; [exact Logic.I|exact Logic.I| |].
  - change (is_blankz (Some c) = true) in Eb. rewrite filler_is in Eb. exact Eb.
  - apply IH, Eb.
Qed.
Lemma solid_nth k p c r s : H k p (c :: r) s -> (1 < k)%nat -> is_blankz (bget 1 s) = false -> solid r.
Proof.
  intros Hh L Eb. rewrite (H_get _ _ _ _ _ _ _ Hh L) in Eb. change (nth_error (c :: r) 1) with (nth_error r 0) in Eb. destruct r as [|d r]; [discriminate|].
  change (is_blankz (Some d) = false) in Eb. rewrite filler_is in Eb. split; [discriminate|exact Eb].
Qed.
Lemma plain_ok k p c r s : H k p (c :: r) s -> (1 < k)%nat -> plain_start s = true -> (chk cMINUS (bget 0 s) && is_blankz (bget 1 s)) = false -> plain_starts (negb (flow_level s =? 0)) (c :: r).
Proof.
  intros Hh L P M. assert (L0 : (0 < k)%nat) by (clear - L; lia). unfold plain_start in P. cbv zeta in P. pose proof (solid_nth _ _ _ _ _ Hh L) as So. rewrite (H_get _ _ _ _ _ _ 0 Hh L0) in P, M. cbn [nth_error] in P, M.
  generalize dependent (bget 1 s). intros o P M So. rewrite filler_is in P. cbn [chk] in P, M. unfold plain_starts.
  apply orb_prop in P. destruct P as [P|P]; [apply orb_prop in P; destruct P as [P|P]|].
  - apply negb_true_iff in P. rewrite !orb_false_iff in P. destruct P as ((((((((((((((((((( P0 & P1) & P2) & P3) & P4) & P5) & P6) & P7) & P8) & P9) & P10) & P11) & P12) & P13) & P14) & P15) & P16) & P17) & P18) & P19).
    split; [exact P0|]. left. unfold indicator, flow_indicator. cbn [existsb]. rewrite P1, P2, P3, P4, P5, P6, P7, P8, P9, P10, P11, P12, P13, P14, P15, P16, P17, P18, P19. reflexivity.
  - apply andb_prop in P. destruct P as [P _]. rewrite P in M. cbn [andb] in M. apply N.eqb_eq in P. subst c. split; [reflexivity|]. right. left. auto.
  - apply andb_prop in P. destruct P as [P P1]. apply andb_prop in P. destruct P as [F P]. apply negb_true_iff in P1. specialize (So P1).
    rewrite F. apply orb_prop in P. destruct P as [P|P]; apply N.eqb_eq in P; subst c; (split; [reflexivity|]); right; right; auto.
Qed.
Lemma plain_flow k p c r s : H k p (c :: r) s -> (1 < k)%nat -> plain_start s = true -> flow_indicator c = false.
Proof.
  intros Hh L P. assert (L0 : (0 < k)%nat) by (clear - L; lia). unfold plain_start in P. cbv zeta in P. rewrite (H_get _ _ _ _ _ _ 0 Hh L0) in P. cbn [nth_error] in P. generalize dependent (bget 1 s). intros o P. cbn [chk] in P.
  unfold flow_indicator. cbn [existsb]. clear - P. generalize dependent (flow_level s =? 0). intros f P. assert (Pf : f = true \/ f = false) by (destruct f; auto). destruct (N.eq_dec c 44) as [-> |N1]; [destruct Pf; subst f; discriminate P|]. destruct (N.eq_dec c 91) as [-> |N2]; [destruct Pf; subst f; discriminate P|].
  destruct (N.eq_dec c 93) as [-> |N3]; [destruct Pf; subst f; discriminate P|]. destruct (N.eq_dec c 123) as [-> |N4]; [destruct Pf; subst f; discriminate P|]. destruct (N.eq_dec c 125) as [-> |N5]; [destruct Pf; subst f; discriminate P|].
  apply N.eqb_neq in N1, N2, N3, N4, N5. rewrite N1, N2, N3, N4, N5. reflexivity.
Qed.

Lemma G_next del s : G del s -> pc fetch_next_token (fun _ s' => G del s') s.
Proof.
  intros [(q & g & r & X)|(q & g & X)]; unfold fetch_next_token.
  - eapply pc_seq; [apply (V_cache _ _ 1 _ _ _ _ _ _ _ X)|]. cbn beta. intros _ s1 (X1 & S1). apply pc_bind, pc_get.
    destruct (stream_start_produced s1) eqn:Ep; cbn [negb]; [|apply (V_start _ _ _ _ _ _ X1); clear; lia].
    eapply pc_seq; [apply (V_to_next _ _ _ _ _ _ _ _ X1)|]. cbn beta. intros _ s2 (g2 & r2 & X2 & K2).
    eapply pc_seq; [apply (V_stale _ _ _ _ _ _ _ _ X2)|]. cbn beta. intros _ s3 (X3 & ks3 & E3). apply pc_bind, pc_get.
    eapply pc_seq; [apply (V_unroll _ _ _ _ _ _ _ _ _ X3)|]. cbn beta. intros _ s4 (q4 & g4 & _ & X4 & K4).
    eapply pc_seq; [apply (V_cache _ _ 4 _ _ _ _ _ _ _ X4)|]. cbn beta. intros _ s5 (X5 & S5). apply pc_bind, pc_get. cbv zeta.
    assert (P5 : stream_start_produced s5 = true).
    { destruct (same_fields _ _ S5) as (_ & _ & _ & _ & F). rewrite F, (proj2 K4), E3. change (stream_start_produced (set_simple_keys ks3 s2)) with (stream_start_produced s2). rewrite (proj2 K2). exact Ep. }
    clear X X1 S1 Ep X2 K2 X3 E3 X4 K4 S5 s s1 s2 s3 s4 q g r g2 ks3.
    assert (X : V None 4 del q4 g4 r2 s5) by (eapply V_less; [|exact X5]; lia). clear X5. rename q4 into q, g4 into g, r2 into r, s5 into s.
    destruct (is_z (bget 0 s)) eqn:Ez.
    { assert (Hn : bget 0 s = None) by (destruct (bget 0 s); [discriminate|reflexivity]). pose proof (V_none _ _ _ _ _ _ _ X ltac:(lia) Hn) as ->. apply (V_end _ _ _ _ _ X P5). }
    clear P5.
    assert (Hcol : (m_col (pos s) =? 0) = true -> m_col (position (q ++ g)) = 0) by (intros Z; apply N.eqb_eq in Z; rewrite <- (h_pos _ _ _ _ _ _ (v_H _ _ _ _ _ _ _ _ _ X)); exact Z).
    assert (Hd : forall c, chk c (bget 0 s) = true -> exists r', r = c :: r') by (intros c Hc; apply chk_some in Hc; apply (V_head _ _ _ _ _ _ _ _ X Hc)).
    assert (H3 : forall c, chk c (bget 0 s) = true -> chk c (bget 1 s) = true -> chk c (bget 2 s) = true -> exists r', r = c :: c :: c :: r').
    { intros c C0 C1 C2. apply chk_some in C0, C1, C2. pose proof (v_H _ _ _ _ _ _ _ _ _ X) as Hh. apply (H_some _ _ _ _ _ _ _ _ Hh) in C0, C1, C2.
      destruct r as [|x0 [|x1 [|x2 r]]]; try discriminate. injection C0 as ->. injection C1 as ->. injection C2 as ->. eauto. }
    destruct ((m_col (pos s) =? 0) && chk cPCT (bget 0 s)) eqn:E1.
    { apply andb_prop in E1. apply (V_directive _ _ _ _ _ _ X); [apply Hcol, E1|apply chk_some, E1]. }
    destruct ((m_col (pos s) =? 0) && chk cMINUS (bget 0 s) && chk cMINUS (bget 1 s) && chk cMINUS (bget 2 s) && is_blankz (bget 3 s)) eqn:E2.
    { apply andb_prop in E2. destruct E2 as [E2 C3]. apply andb_prop in E2. destruct E2 as [E2 C2]. apply andb_prop in E2. destruct E2 as [E2 C1]. apply andb_prop in E2. destruct E2 as [Cc C0].
      destruct (H3 _ C0 C1 C2) as [r' ->]. apply (V_document _ _ _ _ _ _ _ _ X); [constructor|reflexivity|reflexivity|]. intros n. split; [apply Hcol, Cc|]. apply (blankz_nth _ _ _ _ 3 (v_H _ _ _ _ _ _ _ _ _ X) ltac:(lia) C3). }
    destruct ((m_col (pos s) =? 0) && chk cDOT (bget 0 s) && chk cDOT (bget 1 s) && chk cDOT (bget 2 s) && is_blankz (bget 3 s)) eqn:E3.
    { apply andb_prop in E3. destruct E3 as [E3 C3]. apply andb_prop in E3. destruct E3 as [E3 C2]. apply andb_prop in E3. destruct E3 as [E3 C1]. apply andb_prop in E3. destruct E3 as [Cc C0].
      destruct (H3 _ C0 C1 C2) as [r' ->]. apply (V_document _ _ _ _ _ _ _ _ X); [constructor|reflexivity|reflexivity|]. intros n. split; [apply Hcol, Cc|]. apply (blankz_nth _ _ _ _ 3 (v_H _ _ _ _ _ _ _ _ _ X) ltac:(lia) C3). }
    destruct (chk cLBRK (bget 0 s)) eqn:E4. { destruct (Hd _ E4) as [r' ->]. apply (V_flow_start _ _ _ _ _ _ _ _ X); [constructor|reflexivity|intros; split; [reflexivity|exact Logic.I]]. }
    destruct (chk cLBRC (bget 0 s)) eqn:E5. { destruct (Hd _ E5) as [r' ->]. apply (V_flow_start _ _ _ _ _ _ _ _ X); [constructor|reflexivity|intros; split; [reflexivity|exact Logic.I]]. }
    destruct (chk cRBRK (bget 0 s)) eqn:E6. { destruct (Hd _ E6) as [r' ->]. apply (V_flow_end _ _ _ _ _ _ _ _ X); [constructor|reflexivity|intros; split; [reflexivity|exact Logic.I]]. }
    destruct (chk cRBRC (bget 0 s)) eqn:E7. { destruct (Hd _ E7) as [r' ->]. apply (V_flow_end _ _ _ _ _ _ _ _ X); [constructor|reflexivity|intros; split; [reflexivity|exact Logic.I]]. }
    destruct (chk cCOMMA (bget 0 s)) eqn:E8. { destruct (Hd _ E8) as [r' ->]. apply (V_flow_entry _ _ _ _ _ _ X). }
    destruct (chk cMINUS (bget 0 s) && is_blankz (bget 1 s)) eqn:E9. { apply andb_prop in E9. destruct (Hd _ (proj1 E9)) as [r' ->]. apply (V_block_entry _ _ _ _ _ _ X). apply (blankz_nth _ _ _ _ 1 (v_H _ _ _ _ _ _ _ _ _ X) ltac:(lia) (proj2 E9)). }
    destruct (chk cQM (bget 0 s) && (negb (flow_level s =? 0) || is_blankz (bget 1 s))) eqn:E10. { apply andb_prop in E10. destruct (Hd _ (proj1 E10)) as [r' ->]. apply (V_fetch_key _ _ _ _ _ _ X). intros F0. rewrite F0 in E10. apply (blankz_nth _ _ _ _ 1 (v_H _ _ _ _ _ _ _ _ _ X) ltac:(lia) (proj2 E10)). }
    destruct (chk cCOLON (bget 0 s) && (negb (flow_level s =? 0) || is_blankz (bget 1 s))) eqn:E11. { apply andb_prop in E11. destruct (Hd _ (proj1 E11)) as [r' ->]. apply (V_value _ _ _ _ _ _ X). intros F0. rewrite F0 in E11. apply (blankz_nth _ _ _ _ 1 (v_H _ _ _ _ _ _ _ _ _ X) ltac:(lia) (proj2 E11)). }
    destruct (chk cSTAR (bget 0 s)) eqn:E12. { destruct (Hd _ E12) as [r' ->]. apply (V_saved _ _ _ _ _ _ _ _ _ X eq_refl). intros s' ks Hs ->. apply (L_anchor _ _ true _ _ _ _ Hs). apply chk_some in E12. exact E12. }
    destruct (chk cAMP (bget 0 s)) eqn:E13. { destruct (Hd _ E13) as [r' ->]. apply (V_saved _ _ _ _ _ _ _ _ _ X eq_refl). intros s' ks Hs ->. apply (L_anchor _ _ false _ _ _ _ Hs). apply chk_some in E13. exact E13. }
    destruct (chk cBANG (bget 0 s)) eqn:E14. { destruct (Hd _ E14) as [r' ->]. apply (V_saved _ _ _ _ _ _ _ _ _ X eq_refl). intros s' ks Hs ->. apply (L_tag _ _ _ _ _ _ Hs). apply chk_some in E14. exact E14. }
    destruct (chk cPIPE (bget 0 s) && negb (negb (flow_level s =? 0))) eqn:E15. { apply andb_prop in E15. destruct E15 as [E15 F0]. rewrite negb_involutive in F0. apply N.eqb_eq in F0. destruct (Hd _ E15) as [r' ->]. apply (V_removed _ _ _ _ _ _ _ _ _ X eq_refl). intros s' ks Hs ->. apply (L_block _ _ true _ _ _ _ Hs); [exact F0|]. apply chk_some in E15. exact E15. }
    destruct (chk cGT (bget 0 s) && negb (negb (flow_level s =? 0))) eqn:E16. { apply andb_prop in E16. destruct E16 as [E16 F0]. rewrite negb_involutive in F0. apply N.eqb_eq in F0. destruct (Hd _ E16) as [r' ->]. apply (V_removed _ _ _ _ _ _ _ _ _ X eq_refl). intros s' ks Hs ->. apply (L_block _ _ false _ _ _ _ Hs); [exact F0|]. apply chk_some in E16. exact E16. }
    destruct (chk cSQ (bget 0 s)) eqn:E17. { destruct (Hd _ E17) as [r' ->]. apply (V_saved _ _ _ _ _ _ _ _ _ X eq_refl). intros s' ks Hs ->. apply (L_quoted _ _ true _ _ _ _ Hs). apply chk_some in E17. exact E17. }
    destruct (chk cDQ (bget 0 s)) eqn:E18. { destruct (Hd _ E18) as [r' ->]. apply (V_saved _ _ _ _ _ _ _ _ _ X eq_refl). intros s' ks Hs ->. apply (L_quoted _ _ false _ _ _ _ Hs). apply chk_some in E18. exact E18. }
    destruct (plain_start s) eqn:E19; [|apply pc_error].
    destruct (bget 0 s) as [c|] eqn:Eb; [|discriminate Ez]. destruct (V_head _ _ _ _ _ _ _ _ X Eb) as [r' ->].
    pose proof (v_H _ _ _ _ _ _ _ _ _ X) as Hh. rewrite <- Eb in *.
    apply (V_saved _ _ _ _ _ _ _ _ _ X (plain_flow _ _ _ _ _ Hh ltac:(lia) E19)). intros s' ks Hs ->. apply (L_plain _ _ _ _ _ _ Hs ltac:(lia)); [|apply (plain_ok _ _ _ _ _ Hh ltac:(lia) E19 E9)].
    assert (Gs : go s).
    { destruct (plain_start_go s E19) as (_ & A & B).
      - intros Fl. apply N.eqb_neq in Fl. rewrite Fl in E10, E11. cbn [negb orb] in E10, E11. rewrite andb_true_r in E10, E11. auto.
      - split; [|split; [exact A|exact B]]. unfold at_document_indicator. destruct (m_col (pos s) =? 0); [|reflexivity]. cbn [andb] in E2, E3 |- *. destruct (is_blankz (bget 3 s)); [|apply andb_false_r].
        rewrite andb_true_r in E2, E3 |- *. rewrite E2, E3. reflexivity. }
    exact Gs.
  - eapply pc_seq; [apply (cache_empty _ 1 _ (e_text _ _ _ _ X))|]. cbn beta. intros _ s1 (T1 & P1 & S1). apply pc_bind, pc_get. destruct (same_fields _ _ S1) as (F1 & F2 & F3 & F4 & F5).
    rewrite F5, (e_start _ _ _ _ X). cbn [negb].
    assert (X1 : E del q g s1) by (eapply E_other; [exact X|exact F4|auto|exact F1|exact P1|exact F2|exact F5|rewrite F3; apply (e_keys _ _ _ _ X)]). clear X F1 F2 F3 F4 F5 S1 P1.
    eapply pc_seq; [apply (L_to_next_end _ _ T1)|]. cbn beta. intros _ s2 (T2 & P2 & S2). destruct (same_fields _ _ S2) as (F1 & F2 & F3 & F4 & F5).
    assert (X2 : E del q g s2) by (eapply E_other; [exact X1|exact F4|auto|exact F1|exact P2|exact F2|exact F5|rewrite F3; apply (e_keys _ _ _ _ X1)]). clear X1 F1 F2 F3 F4 F5 S2 P2.
    eapply pc_seq; [apply (E_stale _ _ _ _ X2)|]. cbn beta. intros _ s3 X3. apply pc_bind, pc_get.
    eapply pc_seq; [apply (E_unroll _ _ _ _ _ X3)|]. cbn beta. intros _ s4 (q4 & g4 & X4).
    eapply pc_seq; [apply (cache_empty _ 4 _ (e_text _ _ _ _ X4))|]. cbn beta. intros _ s5 (T5 & P5 & S5). apply pc_bind, pc_get. cbv zeta. rewrite (empty_get _ _ _ T5). cbn [is_z].
    destruct (same_fields _ _ S5) as (F1 & F2 & F3 & F4 & F5).
    apply (E_end del q4 g4). eapply E_other; [exact X4|exact F4|auto|exact F1|exact P5|exact F2|exact F5|rewrite F3; apply (e_keys _ _ _ _ X4)].
Qed.

(** ** The queue *)
Lemma G_available del b s : G del s -> G del (set_token_available b s).
Proof.
  intros [(q & g & r & X)|(q & g & X)]; [left; exists q, g, r|right; exists q, g].
  - destruct X as [A1 A2 A3 A4 A5 A6 A0]. constructor; auto. destruct A3 as [B1 B2 B3 B4 B5]. constructor; [exact B1|destruct B2; constructor; assumption|exact B3|exact B4|exact B5].
  - eapply E_other; [exact X|reflexivity|intros []; constructor; assumption|reflexivity..|apply (e_keys _ _ _ _ X)].
Qed.
Lemma G_stale del s : G del s -> pc stale_simple_keys (fun _ s' => G del s') s.
Proof.
  intros [(q & g & r & X)|(q & g & X)].
  - eapply pc_conseq; [apply (V_stale _ _ _ _ _ _ _ _ X)|]. cbn beta. intros _ s' (Y & _). left. eauto.
  - eapply pc_conseq; [apply (E_stale _ _ _ _ X)|]. cbn beta. intros _ s' Y. right. eauto.
Qed.
Lemma G_more del s : G del s -> pc fetch_more_tokens (fun _ s' => G del s') s.
Proof.
  intros X. unfold fetch_more_tokens. eapply pc_seq with (Q1 := fun _ s' => G del s'); [|cbn beta; intros _ s' Y; apply pc_modify, G_available, Y].
  unfold pc. apply (pc_loopM (fun (_ : unit) s' => G del s')); [|exact X].
  intros _ s1 X1. apply pc_bind, pc_get. eapply pc_seq with (Q1 := fun _ s' => G del s').
  - destruct (is_empty (tokens s1)); [apply pc_ret, X1|apply G_stale, X1].
  - cbn beta. intros _ s2 X2. apply pc_bind, pc_get. destruct (negb (need_more_tokens s2)); [apply pc_ret, X2|]. eapply pc_seq; [apply G_next, X2|]. cbn beta. intros _ s3 X3. apply pc_ret, X3.
Qed.
Lemma G_deliver del s t l : G del s -> tokens s = t :: l -> forall s', s' = set_tokens_parsed (tokens_parsed s + 1) (set_token_available false (set_tokens l s)) -> G (del ++ [t]) s' /\ G (del ++ [t]) (set_stream_end_produced true s').
Proof.
  intros X Et s' ->.
  assert (Eq : (del ++ [t]) ++ l = del ++ tokens s) by (rewrite Et, <- app_assoc; reflexivity).
  assert (En : forall n : N, n = N.of_nat (length del) -> n + 1 = N.of_nat (length (del ++ [t]))) by (intros n ->; rewrite app_length; cbn; lia).
  destruct X as [(q & g & r & X)|(q & g & X)].
  - split; left; exists q, g, r; destruct X as [A1 A2 A3 A4 A5 A6 A0].
    all: constructor; [cbn [tokens]; change (covers T 0 [] ((del ++ [t]) ++ l) q); rewrite Eq; exact A1|exact A2| |apply En, A4| |exact A6|change (flow_level s = depths 0 ((del ++ [t]) ++ l)); rewrite Eq; exact A0].
    1,3: destruct A3 as [B1 B2 B3 B4 B5]; constructor; [exact B1|destruct B2; constructor; assumption|exact B3|exact B4|exact B5].
    1,2: change (keys ((del ++ [t]) ++ l) None (simple_keys s)); rewrite Eq; exact A5.
  - split; right; exists q, g; destruct X as [A1 A2 A3 A4 A5 A6 A7 A8 A9].
    all: constructor; [exact A1|change (covers T 0 [] ((del ++ [t]) ++ l) q); rewrite Eq; exact A2|exact A3|destruct A4; constructor; assumption|exact A5|apply En, A6| |exact A8|change (flow_level s = depths 0 ((del ++ [t]) ++ l)); rewrite Eq; exact A9].
    1,2: change (keys ((del ++ [t]) ++ l) None (simple_keys s)); rewrite Eq; exact A7.
Qed.
Lemma G_scan del s : G del s -> stream_end_produced s = false -> pc scan (fun t s' => G (del ++ [t]) s') s.
Proof.
  intros X Hs. unfold scan. apply pc_bind, pc_get. rewrite Hs. eapply pc_seq with (Q1 := fun _ s' => G del s').
  - destruct (token_available s); [apply pc_ret, X|apply G_more, X].
  - cbn beta. intros _ s1 X1. unfold pc. destruct (tokens s1) as [|t l] eqn:Et; [exact Logic.I|]. destruct (G_deliver _ _ _ _ X1 Et _ eq_refl) as [A B]. destruct (is_stream_end t); assumption.
Qed.
(** The text of a state covers what it has delivered. *)
Lemma G_covers del s : G del s -> exists q, covers T 0 [] del q.
Proof.
  intros [(q & g & r & X)|(q & g & X)].
  - destruct (covers_split _ _ _ _ _ _ (v_cov _ _ _ _ _ _ _ _ _ X)) as (q' & A & _). eauto.
  - destruct (covers_split _ _ _ _ _ _ (e_cov _ _ _ _ X)) as (q' & A & _). eauto.
Qed.
End text.
