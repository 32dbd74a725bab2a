(** Prop_Recode.v -- C54: UTF-16 input delivered one byte at a time means what the same text in UTF-8
    means.

    C38 is false of the code when a read of the underlying stream delivers more than one byte
    (C38_utf16_in_one_piece_refuted); for one-byte reads C38_utf16_one_byte_partial shows that the
    right characters are delivered.  Here: every event (but for the encoding that STREAM-START
    names) and every document is then the same as for the text in UTF-8, delivered in any way. *)
From Coq Require Import Lia ZifyBool ZifyNat ZifyN Bool.
From Verif Require Import Base Utf Chars State Reader Scanner Parser EState Emitter Document Api Spec_Tokens Spec_Scanner Spec_Reader Spec_Parser Utf8Facts Utf16Facts Wp ReaderFacts ReadFacts ReadUtf16 Prop_Reader Prop_Utf16 Prop_Scanner Prop_Parser Prop_Document Recode RecodeScan RecodeParse.
Open Scope N_scope.

(** Any list of operations, one after the other. *)
Section lists.
Context {T A : Type}.
Fixpoint runl (ms : list (M T A)) (s : T) : list (res A) * T :=
  match ms with
  | [] => ([], s)
  | m :: ms' => match m s with (r, s1) => match runl ms' s1 with (l, s2) => (r :: l, s2) end end
  end.
Lemma runl_snoc ms m : forall s, runl (ms ++ [m]) s = let (l, s1) := runl ms s in let (r, s2) := m s1 in (l ++ [r], s2).
Proof.
  induction ms as [|a ms IH]; intros s; cbn [runl app]; [destruct (m s); reflexivity|]. destruct (a s) as [r s1]. rewrite IH.
  destruct (runl ms s1) as [l s2]. destruct (m s2). reflexivity.
Qed.
Lemma runl_calls m n : forall s, calls m n s = runl (repeat m n) s.
Proof. induction n as [|n IH]; intros s; [reflexivity|]. cbn [calls repeat runl]. destruct (m s). rewrite IH. reflexivity. Qed.
Variable rp : T -> rpart.
Variable put : rpart -> T -> T.
Variable E : encoding.
Variable ok : res A -> Prop.
Variables (s : T) (x : rpart) (tx : str).
Hypothesis Js : J E tx (rp s).
Hypothesis Jx : J E tx x.
Variable dom : list (M T A) -> Prop.
Hypothesis dom_pre : forall ms m, dom (ms ++ [m]) -> dom ms /\ GSim rp put E m.
Hypothesis R1 : forall ms m os p, dom (ms ++ [m]) -> runl ms s = (os, p) -> Forall ok os -> fst (m p) <> Fuel.
Hypothesis R2 : forall ms m os p, dom (ms ++ [m]) -> runl ms (put x s) = (os, p) -> Forall ok os -> fst (m p) <> Fuel.
Lemma runl_same ms : dom ms -> Forall ok (fst (runl ms s)) ->
  exists tx' x', J E tx' (rp (snd (runl ms s))) /\ J E tx' x' /\ runl ms (put x s) = (fst (runl ms s), put x' (snd (runl ms s))).
Proof.
  induction ms as [|m ms IH] using rev_ind; intros D Ho; [exists tx, x; auto|].
  destruct (dom_pre ms m D) as [D' G].
  rewrite (runl_snoc ms m s) in *. rewrite (runl_snoc ms m (put x s)). destruct (runl ms s) as [l1 s1] eqn:E1. cbn [fst snd] in IH.
  destruct (m s1) as [r1 s2] eqn:Em. cbn [fst snd] in Ho. apply Forall_app in Ho. destruct Ho as [Ho1 Ho2].
  destruct (IH D' Ho1) as (tx1 & x1 & K1 & K2 & Er). rewrite Er.
  pose proof (G tx1 s1 x1 K1 K2) as H. rewrite Em in H. destruct (m (put x1 s1)) as [r2 t2] eqn:Em2.
  destruct H as [H|[H|(H & tx2 & x2 & A1 & A2 & A3)]].
  - exfalso. apply (R1 ms m l1 s1 D E1 Ho1). rewrite Em. exact H.
  - exfalso. apply (R2 ms m l1 (put x1 s1) D Er Ho1). rewrite Em2. exact H.
  - exists tx2, x2. subst r2 t2. auto.
Qed.
Lemma runl_next ms m : dom (ms ++ [m]) -> Forall ok (fst (runl ms s)) -> fst (runl (ms ++ [m]) (put x s)) = fst (runl (ms ++ [m]) s).
Proof.
  intros D Ho. destruct (dom_pre ms m D) as [D' G]. destruct (runl_same ms D' Ho) as (tx1 & x1 & K1 & K2 & Er). rewrite !runl_snoc, Er.
  destruct (runl ms s) as [l1 s1] eqn:E1. cbn [fst snd] in *. pose proof (G tx1 s1 x1 K1 K2) as H.
  destruct (m s1) as [r1 s2] eqn:Em, (m (put x1 s1)) as [r2 t2] eqn:Em2. cbn [fst].
  destruct H as [H|[H|(H & _)]].
  - exfalso. apply (R1 ms m l1 s1 D E1 Ho). rewrite Em. exact H.
  - exfalso. apply (R2 ms m l1 (put x1 s1) D Er Ho). rewrite Em2. exact H.
  - rewrite H. reflexivity.
Qed.
End lists.


Lemma repeat_snoc {A} (m : A) n : repeat m n ++ [m] = repeat m (S n).
Proof. induction n as [|n IH]; [reflexivity|]. cbn [repeat app]. rewrite IH. reflexivity. Qed.
Lemma repeat_of_snoc {A} (m y : A) ms n : ms ++ [y] = repeat m n -> exists k, n = S k /\ ms = repeat m k /\ y = m.
Proof.
  intros H. destruct n as [|n]; [destruct ms; discriminate|]. rewrite <- repeat_snoc in H. apply app_inj_tail in H. destruct H as [-> ->]. eauto.
Qed.
Lemma succeeded_ok {A} (os : list (res A)) : Forall succeeded os -> exists ds, os = map Ok ds.
Proof.
  induction 1 as [|o os H _ [ds ->]]; [exists []; reflexivity|]. destruct o as [d| | |]; try contradiction. exists (d :: ds). reflexivity.
Qed.

(** ** The first call of the parser *)
Definition first_event (u : encoding) : event := Mk_event (EvStreamStart u) mark0 mark0.
Definition started (x : rpart) : rpart := Mk_r (r_src x) (r_eof x) (r_buf x) (r_enc x) (r_off x) true.
Definition after (dbg : bool) : pst := snd (parser_next (parser_start dbg Utf8 (slice_source []))).
Lemma first_parse dbg e i x : cache 1 (scanner_start dbg e i) = (Ok tt, wr x (scanner_start dbg e i)) -> r_ssp x = false ->
  parse (parser_start dbg e i) = (Ok (first_event (r_enc x)), pwr (started x) (after dbg)).
Proof.
  intros H Hx. destruct x as [x1 x2 x3 x4 x5 x6]. cbn in Hx. subst x6.
  assert (P : parse (parser_start dbg e i) = state_machine (parser_start dbg e i)) by reflexivity. rewrite P.
  assert (Q : state_machine (parser_start dbg e i) = parse_stream_start (parser_start dbg e i)) by reflexivity. rewrite Q.
  unfold parse_stream_start, bind at 1. unfold ppeek, on_sc. change (sc (parser_start dbg e i)) with (scanner_start dbg e i).
  assert (K : peek (scanner_start dbg e i) = (Ok (Mk_token (TStreamStart x4) mark0 mark0),
     wr (Mk_r x1 x2 x3 x4 x5 true) (set_token_available true (set_tokens [Mk_token (TStreamStart x4) mark0 mark0] (set_indent (-1)%Z (set_simple_keys [Mk_sk false false 0 mark0] (set_simple_key_allowed true (scanner_new dbg)))))))).
  { unfold peek, bind at 1, get at 1. change (token_available (scanner_start dbg e i)) with false. cbv iota.
    unfold bind at 1. unfold fetch_more_tokens. unfold bind at 1. generalize (S (meas (scanner_start dbg e i))). intros n.
    cbn [loopM]. unfold bind at 1 2, get at 1. change (tokens (scanner_start dbg e i)) with (@nil token). cbn [is_empty]. unfold bind at 1, ret at 1. unfold bind at 1, get at 1.
    change (need_more_tokens (scanner_start dbg e i)) with true. cbn [negb]. unfold bind at 1. unfold fetch_next_token. unfold bind at 1. rewrite H.
    reflexivity. }
  rewrite K. destruct dbg; reflexivity.
Qed.
Lemma first_next dbg e i x : cache 1 (scanner_start dbg e i) = (Ok tt, wr x (scanner_start dbg e i)) -> r_ssp x = false ->
  parser_next (parser_start dbg e i) = (Ok (Some (first_event (r_enc x))), pwr (started x) (after dbg)).
Proof.
  intros H Hx. unfold parser_next. unfold bind at 1, get. change (at_end (parser_start dbg e i)) with false. cbv iota. unfold bind. rewrite (first_parse dbg e i x H Hx). reflexivity.
Qed.
Lemma first_load dbg e i x : cache 1 (scanner_start dbg e i) = (Ok tt, wr x (scanner_start dbg e i)) -> r_ssp x = false ->
  load (parser_start dbg e i) = load_rest (pwr (started x) (after dbg)).
Proof.
  intros H Hx. unfold load. change (stream_start_produced (sc (parser_start dbg e i))) with false. cbv iota. unfold bind. rewrite (first_parse dbg e i x H Hx). reflexivity.
Qed.

Lemma pwr_pwr x y p : pwr x (pwr y p) = pwr x p. Proof. reflexivity. Qed.
Opaque after.
(** What the first call of the reader does. *)
Lemma cache_enc16 be tx s : text16 be tx s -> buffer s = [] ->
  wp (cache 1) (fun _ s' => enc s' = e16 be) (fun _ _ => False) (fun _ => False) s.
Proof.
  intros T Hb. unfold cache. apply wp_bind, wp_get. rewrite Hb. cbn [length Nat.leb].
  unfold update_buffer. apply wp_bind, wp_get. rewrite Hb. cbn [length Nat.leb].
  pose proof (t6_single _ _ _ T) as Hs. unfold singles in Hs. destruct (src s) as [i|] eqn:Ei; [|contradiction].
  apply wp_bind. eapply wp_conseq with
    (Q := fun done s' => done = false /\ text16 be tx s' /\ enc s' = e16 be)
    (E := fun _ _ => False) (P := fun _ => False); [| |contradiction|contradiction].
  - destruct (encoding_eqb (enc s) EncAny) eqn:He.
    + apply encoding_eqb_eq in He. eapply wp_seq; [apply (determine_text16 _ _ _ T He)| |contradiction|contradiction].
      cbn beta. intros o s1 (-> & Ht). apply wp_bind, wp_modify, wp_ret. auto.
    + apply wp_ret. split; [reflexivity|]. split; [exact T|].
      destruct (t6_bytes _ _ _ T) as [(H & _)|(H & _)]; [exact H|]. rewrite H in He. discriminate.
  - cbn beta. intros done s1 (-> & T1 & E1).
    eapply wp_seq; [apply (fill_loop_text16 1 be tx s1 T1 E1)| |auto|contradiction]. cbn beta.
    intros b s2 (T2 & E2 & F2). destruct b; [apply wp_ret; auto|].
    apply wp_bind, wp_gets. change 9223372036854775807 with limit. destruct (N.leb_spec limit (offset s2)) as [Hlim|_]; [|apply wp_ret; auto].
    exfalso. destruct (t6_bytes _ _ _ T2) as [(_ & H & _)|(H & _)]; [lia|rewrite E2 in H; destruct be; discriminate].
Qed.
Lemma rd_wr_start s s' : rd s s' -> s' = wr (rof s') s /\ r_ssp (rof s') = stream_start_produced s.
Proof.
  intros R. split; [apply rd_wr, R|]. pose proof (rd_frame _ _ R) as Hf. destruct s, s'. unfold frame in Hf. cbn in *. injection Hf. intros. subst. reflexivity.
Qed.
Lemma start16 dbg be e i tx : input_text16 be e i tx -> exists x,
  cache 1 (scanner_start dbg e i) = (Ok tt, wr x (scanner_start dbg e i)) /\ r_ssp x = false /\ r_enc x = e16 be /\ J Utf8 tx (started x).
Proof.
  intros Hi. pose proof (input_text16_start dbg e be i tx Hi) as T.
  pose proof (wp_and _ _ _ _ _ _ _ _ (wp_and _ _ _ _ _ _ _ _ (cache_text16 1 be tx _ T) (cache_enc16 be tx _ T eq_refl)) (cache_wp 1 (scanner_start dbg e i) ltac:(discriminate))) as W.
  unfold wp in W. destruct (cache 1 (scanner_start dbg e i)) as [[[]|er|p|] s1]; try tauto.
  destruct W as [[[T1 _] E1] [[R _] _]]. destruct (rd_wr_start _ _ R) as [Es Ep]. exists (rof s1). split; [congruence|]. split; [exact Ep|]. split; [exact E1|].
  split; [|reflexivity]. right. exists be. destruct T1. constructor; auto.
Qed.
Lemma start8 dbg e i tx : input_text e i tx -> exists x,
  cache 1 (scanner_start dbg e i) = (Ok tt, wr x (scanner_start dbg e i)) /\ r_ssp x = false /\ (tx <> [] -> r_enc x = Utf8) /\ J Utf8 tx (started x).
Proof.
  intros Hi. pose proof (input_text_start dbg e i tx Hi) as T.
  pose proof (cache_text 1 [] tx _ T) as W.
  unfold wp in W. destruct (cache 1 (scanner_start dbg e i)) as [[[]|er|p|] s1]; try contradiction; [|destruct W as (_ & B & _); destruct (B eq_refl)].
  destruct W as (T1 & R & Fu). destruct (rd_wr_start _ _ R) as [Es Ep]. exists (rof s1). split; [congruence|]. split; [exact Ep|]. split; [|split; [|reflexivity]].
  - intros Hn. destruct (tx_bytes _ _ _ T1) as [(H & _)|(H1 & _ & H2 & _)]; [exact H|]. exfalso. destruct Fu as [Fu|[Fu _]]; [rewrite H2 in Fu; cbn in Fu; lia|congruence].
  - left. destruct T1. constructor; auto.
Qed.

(** ** Events *)
Theorem C54_events : forall dbg be e i e' i' tx n os p,
  input_text16 be e i tx -> input_text e' i' tx ->
  calls parser_next n (parser_start dbg e' i') = (os, p) -> Forall succeeded os ->
  exists u rest,
    fst (calls parser_next (S n) (parser_start dbg e' i')) = Ok (Some (first_event u)) :: rest /\
    fst (calls parser_next (S n) (parser_start dbg e i)) = Ok (Some (first_event (if be then Utf16Be else Utf16Le))) :: rest /\
    (tx <> [] -> u = Utf8).
Proof.
  intros dbg be e i e' i' tx n os p H6 H8 Hs Ho.
  destruct (start16 dbg be e i tx H6) as (x6 & C6 & P6 & E6 & J6). destruct (start8 dbg e' i' tx H8) as (x8 & C8 & P8 & E8 & J8).
  pose proof (first_next dbg e i x6 C6 P6) as N6. pose proof (first_next dbg e' i' x8 C8 P8) as N8.
  exists (r_enc x8), (fst (calls parser_next n (pwr (started x8) (after dbg)))).
  cbn [calls]. rewrite N6, N8. rewrite E6.
  destruct (calls parser_next n (pwr (started x8) (after dbg))) as [l8 s8] eqn:L8. destruct (calls parser_next n (pwr (started x6) (after dbg))) as [l6 s6] eqn:L6.
  cbn [fst]. split; [reflexivity|]. split; [|exact E8]. f_equal.
  destruct n as [|n]; [cbn in L8, L6; congruence|].
  assert (X : fst (calls parser_next (S n) (pwr (started x6) (after dbg))) = fst (calls parser_next (S n) (pwr (started x8) (after dbg)))); [|rewrite L6, L8 in X; exact X].
  rewrite !runl_calls, <- repeat_snoc. rewrite <- (pwr_pwr (started x6) (started x8) (after dbg)).
  assert (NF : forall e1 i1 x1 ms m os1 q, cache 1 (scanner_start dbg e1 i1) = (Ok tt, wr x1 (scanner_start dbg e1 i1)) -> r_ssp x1 = false -> (exists k, ms ++ [m] = repeat parser_next k) -> runl ms (pwr (started x1) (after dbg)) = (os1, q) -> Forall succeeded os1 -> fst (m q) <> Fuel).
  { intros e1 i1 x1 ms m os1 q C1 P1 [k Hk] H Hr. apply repeat_of_snoc in Hk. destruct Hk as (k' & -> & -> & ->). rewrite <- runl_calls in H.
    apply (C12_every_call_returns dbg e1 i1 (S k') (Ok (Some (first_event (r_enc x1))) :: os1) q).
    - cbn [calls]. rewrite (first_next dbg e1 i1 x1 C1 P1), H. reflexivity.
    - constructor; [exact Logic.I|exact Hr]. }
  eapply (runl_next prof pwr Utf8 succeeded (pwr (started x8) (after dbg)) _ tx J8 J6 (fun ms => exists k, ms = repeat parser_next k)).
  - intros ms m [k Hk]. apply repeat_of_snoc in Hk. destruct Hk as (k' & -> & -> & ->). split; [eauto|apply P_next].
  - intros ms m os1 q. apply (NF e' i' x8 ms m os1 q C8 P8).
  - intros ms m os1 q. rewrite pwr_pwr. apply (NF e i x6 ms m os1 q C6 P6).
  - exists (S n). apply repeat_snoc.
  - rewrite <- runl_calls. cbn [calls] in Hs. rewrite N8 in Hs. destruct (calls parser_next n (pwr (started x8) (after dbg))) as [l9 s9] eqn:L9.
    injection Hs as <- _. inversion Ho; assumption.
Qed.

(** ** Documents *)
Definition lops (k : nat) : list (M pst document) := match k with O => [] | S k => load_rest :: repeat load k end.
Lemma lops_snoc k : lops (S k) = lops k ++ [match k with O => load_rest | S _ => load end].
Proof. destruct k as [|k]; [reflexivity|]. cbn [lops app]. rewrite repeat_snoc. reflexivity. Qed.
Lemma lops_of_snoc ms (m : M pst document) n : ms ++ [m] = lops n -> exists k, n = S k /\ ms = lops k /\ m = match k with O => load_rest | S _ => load end.
Proof.
  intros H. destruct n as [|n]; [destruct ms; discriminate|]. rewrite lops_snoc in H. apply app_inj_tail in H. destruct H as [-> ->]. eauto.
Qed.
Theorem C54_documents : forall dbg be e i e' i' tx n os p,
  input_text16 be e i tx -> input_text e' i' tx ->
  calls load n (parser_start dbg e' i') = (os, p) -> Forall succeeded os ->
  fst (calls load (S n) (parser_start dbg e i)) = fst (calls load (S n) (parser_start dbg e' i')).
Proof.
  intros dbg be e i e' i' tx n os p H6 H8 Hs Ho.
  destruct (start16 dbg be e i tx H6) as (x6 & C6 & P6 & E6 & J6). destruct (start8 dbg e' i' tx H8) as (x8 & C8 & P8 & E8 & J8).
  assert (St : forall e1 i1 x1 k, cache 1 (scanner_start dbg e1 i1) = (Ok tt, wr x1 (scanner_start dbg e1 i1)) -> r_ssp x1 = false ->
    (k <> O -> runl (lops k) (pwr (started x1) (after dbg)) = calls load k (parser_start dbg e1 i1)) /\
    forall os1 q, runl (lops k) (pwr (started x1) (after dbg)) = (os1, q) -> Forall succeeded os1 -> fst ((match k with O => load_rest | S _ => load end) q) <> Fuel).
  { intros e1 i1 x1 k C1 P1. pose proof (first_load dbg e1 i1 x1 C1 P1) as L.
    assert (Y : k <> O -> runl (lops k) (pwr (started x1) (after dbg)) = calls load k (parser_start dbg e1 i1)).
    { intros Hk. destruct k as [|k]; [contradiction|]. cbn [lops runl calls]. rewrite L. destruct (load_rest _) as [r s]. rewrite runl_calls. reflexivity. }
    split; [exact Y|]. intros os1 q H Hr. destruct k as [|k].
    - cbn in H. injection H as <- <-. rewrite <- L. exact (C18_load_returns dbg e1 i1 0 [] _ eq_refl).
    - rewrite (Y ltac:(discriminate)) in H. destruct (succeeded_ok _ Hr) as [ds ->]. exact (C18_load_returns dbg e1 i1 _ ds q H). }
  rewrite <- (proj1 (St e i x6 (S n) C6 P6) ltac:(discriminate)), <- (proj1 (St e' i' x8 (S n) C8 P8) ltac:(discriminate)), lops_snoc.
  rewrite <- (pwr_pwr (started x6) (started x8) (after dbg)).
  eapply (runl_next prof pwr Utf8 succeeded (pwr (started x8) (after dbg)) _ tx J8 J6 (fun ms => exists k, ms = lops k)).
  - intros ms m [k Hk]. apply lops_of_snoc in Hk. destruct Hk as (k' & -> & -> & ->). split; [eauto|]. destruct k'; [apply P_load_rest|apply P_load].
  - intros ms m os1 q [k Hk]. apply lops_of_snoc in Hk. destruct Hk as (k' & -> & -> & ->). apply (St e' i' x8 k' C8 P8).
  - intros ms m os1 q [k Hk]. apply lops_of_snoc in Hk. destruct Hk as (k' & -> & -> & ->). rewrite pwr_pwr. apply (St e i x6 k' C6 P6).
  - exists (S n). symmetry. apply lops_snoc.
  - destruct n as [|n]; [constructor|]. rewrite (proj1 (St e' i' x8 (S n) C8 P8) ltac:(discriminate)), Hs. exact Ho.
Qed.
Print Assumptions C54_events.
Print Assumptions C54_documents.

(** The input of the demonstration of C38: "- é€😀" in UTF-16LE with interruptions, and the same text in one piece of UTF-8. *)
Example demo16_utf8 : input_text Utf8 (slice_source (encode_utf8 demo16)) demo16.
Proof.
  split; [repeat constructor|]. split; [unfold demo16; repeat apply Forall_cons; try apply Forall_nil; unfold yaml_char; lia|].
  split; [vm_compute; reflexivity|]. exists (encode_utf8 demo16). split; [apply utf8_text_encode; split; [repeat constructor|reflexivity]|]. reflexivity.
Qed.
Example demo16_events : exists rest,
  fst (calls parser_next 7 (parser_start true EncAny demo16_source)) = Ok (Some (first_event Utf16Le)) :: rest /\
  fst (calls parser_next 7 (parser_start true Utf8 (slice_source (encode_utf8 demo16)))) = Ok (Some (first_event Utf8)) :: rest /\ Forall succeeded rest /\ length rest = 6%nat.
Proof. eexists. split; [vm_compute; reflexivity|]. split; [vm_compute; reflexivity|]. split; [repeat (constructor; [exact Logic.I|]); constructor|reflexivity]. Qed.
Example demo16_document :
  fst (calls load 1 (parser_start true EncAny demo16_source)) = fst (calls load 1 (parser_start true Utf8 (slice_source (encode_utf8 demo16)))) /\
  Forall succeeded (fst (calls load 1 (parser_start true EncAny demo16_source))).
Proof. split; [vm_compute; reflexivity|]. match goal with |- Forall _ ?x => let t := eval vm_compute in x in change x with t end. repeat (constructor; [exact Logic.I|]). constructor. Qed.
