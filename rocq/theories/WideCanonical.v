(** WideCanonical.v -- what C40 says of the text that is written, whatever its encoding. *)
From Coq Require Import Lia ZifyBool ZifyNat ZifyN Bool.
From Verif Require Import Base Utf Chars State Reader Scanner Parser Wp ScanFacts RoundScan EState Emitter Document Api Spec_Tokens Spec_Scanner Spec_Reader Spec_Parser Utf8Facts ReaderFacts ReadFacts Prop_Reader Prop_Parser Chunk ChunkParse Prop_Chunk RoundCarry
  Spec_Events EventFacts IoFacts Spec_Emitter Spec_EmitNames EmitText EmitIo EmitSession EmitGrammar Prop_Emitter Prop_EmitGrammar Spec_Canonical CanonLex CanonBody CanonItems CanonEmit CanonToks CanonStep CanonRun CanonParse CanonRead.
From Verif Require Import Prop_Canonical.
Open Scope N_scope.

Lemma canonical_any_encoding : forall st plan ev l,
  st_canonical st = true ->
  stream_events (EvStreamStart ev :: map e_data (emitted l)) -> map e_data (emitted l) <> [EvStreamEnd] ->
  Forall (fun e => valid_event true (e_data e)) (emitted l) -> Forall (fun e => plain_data (e_data e)) (emitted l) -> abbreviable (map e_data (emitted l)) ->
  N.of_nat (length (emitted l)) <= 2147483647 ->
  exists r s', session ev l (new_emitter st plan) = (r, s') /\
  (r = Ok tt \/ exists k, r = Err (EIo (OtherIo k)) /\ In k (write_failures (new_emitter st plan))) /\
  (r = Ok tt -> exists t, t <> [] /\ Forall yaml_char t /\ Forall sc_char t /\ output s' = encoded (effective_encoding (st_encoding st) ev) t /\
    forall dbg e i, input_text e i t ->
    exists es, map e_data es = EvStreamStart Utf8 :: reread (map e_data (emitted l)) /\
    forall k, fst (calls parser_next (length es + k) (parser_start dbg e i)) = map (fun e => Ok (Some e)) es ++ repeat (Ok None) k).
Proof.
  intros st plan ev l Hcan Hst Hdoc Hv Hp Hab Hn.
  assert (G : grun GDocs (data (emitted l)) = Some GEnd) by (apply stream_grun in Hst; exact Hst).
  assert (Hat : ascii_tags (emitted l)).
  { eapply Forall_impl; [|exact Hp]. intros e He. cbv beta in He |- *. destruct (e_data e) as [| | | | |? [?|]|? [?|]| |? [?|]|]; try exact I; apply He. }
  assert (Hok : events_ok GDocs (data (emitted l))).
  { apply (events_okay (data (emitted l)) Hab) with (done := []); [unfold data; apply Forall_map, Hv|unfold data; apply Forall_map, Hp|unfold data; rewrite map_length; exact Hn|reflexivity|exact I|rewrite G; discriminate]. }
  destruct (canonical_text ev st plan l Hcan Hok G) as (its & c' & st' & ls' & Hlf & R & Hi & Hl & Hv0 & Hrun & Hend).
  set (lf := break_chars (st_break (effective ev st))) in *.
  destruct (session_outcome ev st plan l _ _ _ R) as (r & s' & E & _ & O). exists r, s'. split; [exact E|]. split.
  { destruct O as [[-> _]|(x & Hx)]; [left; reflexivity|right; exists x; exact Hx]. }
  intros ->. destruct O as [[_ O]|(x & Hx & _)]; [|discriminate Hx].
  assert (Hout : output s' = encoded (effective_encoding (st_encoding st) ev) (texts lf its)).
  { destruct Hst as (e0 & docs & Hd & Ed). injection Ed as _ Ed.
    assert (Hem : exists es e, emitted l = es ++ [e] /\ e_data e = EvStreamEnd).
    { destruct (emitted l) as [|e es _] using rev_ind; [destruct docs; discriminate Ed|]. exists es, e. split; [reflexivity|]. rewrite map_app in Ed. apply app_inj_tail in Ed. apply Ed. }
    destruct Hem as (es & e & Hem & He). destruct (closed_flush ev st plan l es e s') as [_ Hf]; [rewrite He; exact I| | |exact Hem|exact E|].
    - rewrite <- Hem. apply prefix_grun. eauto.
    - rewrite <- Hem. exact Hat.
    - exact (O s' Hf). }
  assert (Hne : its <> []). { intros ->. eapply (crun_toks _ _ _ _ Hrun); [reflexivity|exact Hend|exact Hdoc|reflexivity]. }
  destruct (texts_head lf its Hlf Hi Hne) as (c0 & rt & Eh & Hc0).
  assert (Hyc : Forall yaml_char (texts lf its)) by (eapply Forall_impl; [|exact (texts_okc lf its Hlf Hi)]; intros ch; apply okc_yaml).
  exists (texts lf its). split; [rewrite Eh; discriminate|]. split; [exact Hyc|]. split; [apply okcs_scalar, texts_okc; assumption|]. split; [exact Hout|].
  intros dbg e i Hin.
  assert (Hev : Forall ev_ok (data (emitted l))).
  { unfold data. apply Forall_map. eapply Forall_impl; [|exact Hv]. intros e1 (V1 & V2 & _). split; [exact V2|]. destruct V1 as [_ V1]. unfold tag_ne. destruct (e_data e1); exact V1. }
  destruct (ideal_run lf its ls' (data (emitted l)) st' dbg e i Hlf Hi Hl Hv0 Hrun Hend Hev) as (es & p' & Er & Em & Fin).
  exists es. split; [exact Em|]. intros k.
  assert (Hlen : length es = S (length (data (emitted l)))).
  { apply (f_equal fst) in Er. cbn [fst] in Er. apply (f_equal (@length _)) in Er. unfold oks in Er. rewrite map_length in Er. rewrite <- Er. clear. generalize (pwr (full (texts lf its)) (parser_start dbg e i)). generalize (S (length (data (emitted l)))).
    intros n. induction n as [|n IH]; intros p; [reflexivity|]. cbn [calls]. destruct (parser_next p) as [r p1]. specialize (IH p1). destruct (calls parser_next n p1). cbn [fst length] in *. congruence. }
  destruct (any_run (texts lf its) dbg e i (length es + k) (oks es ++ repeat (Ok None) k) p') as (p2 & E2).
  - exact Hin.
  - rewrite Eh. discriminate.
  - rewrite calls_app, Hlen, Er, (finished_calls k p' Fin). reflexivity.
  - apply Forall_app. split; [apply Forall_map, Forall_forall; intros; exact I|apply Forall_forall; intros x Hx; apply repeat_spec in Hx; subst; exact I].
  - rewrite E2. reflexivity.
Qed.
