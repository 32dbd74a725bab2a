(** EmitSession.v -- sessions of the emitter. *)
From Coq Require Import ZifyBool.
From Verif Require Import Base Utf Chars EState Emitter Document Api EmitText EmitRuns Spec_Emitter.

(** The state after STREAM-START. *)
Definition started (ev : encoding) (st : settings) (plan : list write_ev) : est :=
  let x := effective ev st in
  Mk_est (Some (Mk_writer [] plan)) (bom_of (st_encoding x)) [] (st_encoding x) (st_canonical x) (st_indent x) (st_width x)
    (st_unicode x) (st_break x) [] EFirstDocumentStart [] [] [] (-1) 0 false false false false 0 0 true true 0 false false [] 0.

(** What [emit] does with a STREAM-START event on a new emitter. *)
Definition seq_start (s1 : est) : res unit * est :=
  match (when (negb (encoding_eqb (em_encoding s1) Utf8)) write_bom ;; goto_estate EFirstDocumentStart) s1 with
  | (Ok _, s2) => (Ok tt, if is_empty (em_tag_directives s2) then set_em_tag_directives [] s2 else s2)
  | r => r
  end.
Lemma b_get {A} (k : est -> M est A) s : bind get k s = k s s.
Proof. reflexivity. Qed.
Lemma b_modify {A} f (k : unit -> M est A) s : bind (modify f) k s = k tt (f s).
Proof. reflexivity. Qed.
Lemma b_ok {A B} (m : M est A) (k : A -> M est B) s a s' : m s = (Ok a, s') -> bind m k s = k a s'.
Proof. intros H. unfold bind. rewrite H. reflexivity. Qed.
Lemma emit_loop_step n s : emit_loop (S n) s =
  match em_events s with
  | e :: r => if ready (e :: r) then (emit_one e ;; emit_loop n) (set_em_events r s) else (Ok tt, s)
  | [] => (Ok tt, s)
  end.
Proof.
  unfold emit_loop at 1. cbn [loopM]. unfold bind, needs_mode_events. destruct (em_events s) as [|e r]; [reflexivity|].
  destruct (ready (e :: r)); [|reflexivity]. unfold emit_loop. destruct (emit_one e (set_em_events r s)) as [[?|?|?|] ?]; reflexivity.
Qed.
Lemma emit_one_first ev a b plan en ca i w un br :
  let s := Mk_est (Some (Mk_writer [] plan)) [] [] en ca i w un br [] EStreamStart [] [] [] 0 0
         false false false false 0 0 false false 0 false false [] 0 in
  emit_one (Mk_event (EvStreamStart ev) a b) s = seq_start (normalise_settings ev s).
Proof.
  intros s. unfold emit_one. rewrite b_get. cbv zeta. rewrite b_modify.
  replace (set_em_tag_directives [] s) with s by reflexivity. change (em_tag_directives s) with (@nil tag_directive).
  rewrite (b_ok _ _ s analysis_default s) by reflexivity. unfold em_state_machine. 
  unfold bind at 1. rewrite b_get. change (em_state s) with EStreamStart. cbv iota. unfold emit_stream_start. cbn [e_data event_new].
  rewrite b_modify. replace (set_em_open_ended 0 s) with s by reflexivity. rewrite b_modify. rewrite b_get.
  unfold seq_start. destruct ((when (negb (encoding_eqb (em_encoding (normalise_settings ev s)) Utf8)) write_bom;; goto_estate EFirstDocumentStart) (normalise_settings ev s)) as [[?|?|?|] ?]; reflexivity.
Qed.
Lemma start_ok_marks ev a b st plan : emit (Mk_event (EvStreamStart ev) a b) (new_emitter st plan) = (Ok tt, started ev st plan).
Proof.
  destruct st as [en ca i w un br]. 
  assert (Hn : new_emitter (Mk_settings en ca i w un br) plan =
    Mk_est (Some (Mk_writer [] plan)) [] [] en ca (if ((1 <? i) && (i <? 10))%Z then i else 2%Z) (if (0 <=? w)%Z then w else (-1)%Z) un br [] EStreamStart [] [] [] 0 0
         false false false false 0 0 false false 0 false false [] 0).
  { destruct en; reflexivity. }
  rewrite Hn. clear Hn.
  assert (Hi : (if ((1 <? i) && (i <? 10))%Z then i else 2%Z) = (if ((2 <=? i) && (i <=? 9))%Z then i else 2%Z)).
  { destruct ((1 <? i) && (i <? 10))%Z eqn:E1, ((2 <=? i) && (i <=? 9))%Z eqn:E2; try reflexivity; exfalso; lia. }
  rewrite Hi. unfold started, effective. cbn [st_encoding st_canonical st_indent st_width st_unicode st_break].
  set (i' := if ((2 <=? i) && (i <=? 9))%Z then i else 2%Z).
  assert (Ri : (2 <= i' <= 9)%Z) by (unfold i'; destruct ((2 <=? i) && (i <=? 9))%Z eqn:E; lia).
  clearbody i'. clear Hi.
  set (w' := if (0 <=? w)%Z then w else (-1)%Z).
  assert (E1 : ((i' <? 2) || (9 <? i'))%Z = false) by lia.
  assert (Ew : (let x := if ((0 <=? w') && (w' <=? i' * 2))%Z then 80%Z else w' in if (x <? 0)%Z then 2147483647%Z else x)
     = (if (w <? 0)%Z then 2147483647%Z else if (w <=? 2 * i')%Z then 80%Z else w)).
  { cbv zeta. unfold w'. destruct (0 <=? w)%Z eqn:E0.
    - replace (w <? 0)%Z with false by lia. destruct ((0 <=? w) && (w <=? i' * 2))%Z eqn:E2.
      + replace (w <=? 2 * i')%Z with true by lia. reflexivity.
      + replace (w <=? 2 * i')%Z with false by lia. replace (w <? 0)%Z with false by lia. reflexivity.
    - replace (w <? 0)%Z with true by lia. destruct ((0 <=? -1) && (-1 <=? i' * 2))%Z eqn:E2; [lia|]. reflexivity. }
  rewrite <- Ew. clear Ew. generalize w'. clear w' w. intros w.
  assert (Hs : normalise_settings ev (Mk_est (Some (Mk_writer [] plan)) [] [] en ca i' w un br [] EStreamStart [] [] [] 0 0
         false false false false 0 0 false false 0 false false [] 0) =
      Mk_est (Some (Mk_writer [] plan)) [] [] (effective_encoding en ev) ca i'
        (let x := if ((0 <=? w) && (w <=? i' * 2))%Z then 80%Z else w in if (x <? 0)%Z then 2147483647%Z else x) un
        (match br with BrAny => BrLn | b => b end) [] EStreamStart [] [] [] (-1) 0 false false false false 0 0 true true 0 false false [] 0).
  { unfold normalise_settings. cbv zeta.
    destruct en, ev; cbn [encoding_eqb em_encoding set_em_encoding em_best_indent em_best_width]; rewrite E1;
    cbn [em_best_indent em_best_width set_em_encoding];
    (destruct ((0 <=? w) && (w <=? i' * 2))%Z; cbn [em_best_width set_em_best_width set_em_encoding Z.ltb Z.compare];
     [|destruct (w <? 0)%Z]; destruct br; reflexivity). }
  cbv zeta in Hs |- *. revert Hs. generalize (if ((if (0 <=? w) && (w <=? i' * 2) then 80 else w) <? 0)%Z then 2147483647%Z else if ((0 <=? w) && (w <=? i' * 2))%Z then 80%Z else w).
  intros w' Hs.
  match goal with |- emit _ ?x = _ => set (s := x) in * end.
  rewrite emit_eq. unfold enqueue. rewrite b_modify, b_get.
  set (s1 := set_em_events (em_events s ++ [Mk_event (EvStreamStart ev) a b]) s).
  assert (H1 : em_events s1 = [Mk_event (EvStreamStart ev) a b]) by reflexivity. rewrite H1. cbn [length].
  rewrite emit_loop_step, H1. change (ready [Mk_event (EvStreamStart ev) a b]) with true. cbv iota.
  replace (set_em_events [] s1) with s by reflexivity. clear s1 H1.
  unfold bind. unfold s. rewrite emit_one_first. unfold s in Hs. rewrite Hs. clear Hs.
  unfold seq_start. 
  destruct (effective_encoding en ev) eqn:Ee; [destruct en, ev; discriminate Ee|destruct br; reflexivity..].
Qed.
Lemma start_ok ev st plan : emit (event_new (EvStreamStart ev)) (new_emitter st plan) = (Ok tt, started ev st plan).
Proof. exact (start_ok_marks ev _ _ st plan). Qed.

Lemma encoded_eq e t : e <> EncAny -> encode_out e (bom_of e ++ t) = encoded e t.
Proof. intros He. destruct e; [destruct (He eq_refl)|reflexivity..]. Qed.
Lemma effective_encoding_set a b : effective_encoding a b <> EncAny.
Proof. destruct a, b; discriminate. Qed.
Lemma started_holds ev st plan : holds (effective_encoding (st_encoding st) ev) [] (started ev st plan).
Proof.
  split; [reflexivity|]. split; [apply effective_encoding_set|]. split; [reflexivity|]. exists (Mk_writer [] plan). split; [reflexivity|].
  cbn [w_out app started em_buffer]. rewrite app_nil_r. reflexivity.
Qed.
Lemma started_nice ev st plan : nice (core (started ev st plan)).
Proof. split; [discriminate|intros []]. Qed.
Lemma started_core ev1 ev2 e1 e2 st p1 p2 : 
  core (started ev1 (Mk_settings e1 (st_canonical st) (st_indent st) (st_width st) (st_unicode st) (st_break st)) p1) =
  core (started ev2 (Mk_settings e2 (st_canonical st) (st_indent st) (st_width st) (st_unicode st) (st_break st)) p2).
Proof. reflexivity. Qed.

(** Flushing between the events changes nothing. *)
Lemma runs_calls es : forall c, nice c -> exists d r c',
  nice c' /\ forall l, emitted l = es -> runs (run_calls l) c d r c'.
Proof.
  induction es as [|e es IH]; intros c Hc.
  - exists [], (Ok tt), c. split; [exact Hc|]. induction l as [|[e|] l IHl]; intros H.
    + apply runs_ret.
    + discriminate H.
    + exact (runs_seq _ _ _ [] c [] _ _ (runs_flush c) (IHl H)).
  - destruct (J_emit e c Hc) as (d1 & r1 & c1 & R1 & N1). destruct (is_ok r1) eqn:E1.
    + destruct r1 as [[]|?|?|]; try discriminate E1. destruct (IH c1 N1) as (d2 & r2 & c2 & N2 & R2).
      exists (d1 ++ d2), r2, c2. split; [exact N2|]. induction l as [|[e'|] l IHl]; intros H.
      * discriminate H.
      * injection H as -> H. exact (runs_bind _ _ _ _ _ _ _ _ _ R1 (R2 l H)).
      * exact (runs_seq _ _ _ [] c _ _ _ (runs_flush c) (IHl H)).
    + exists d1, (recast r1), c1. split; [exact N1|]. induction l as [|[e'|] l IHl]; intros H.
      * discriminate H.
      * injection H as -> H. exact (runs_bind_stop _ _ _ _ _ _ E1 R1).
      * exact (runs_seq _ _ _ [] c _ _ _ (runs_flush c) (IHl H)).
Qed.

(** The same, with the characters of the text. *)
From Verif Require Import EmitChars.
Lemma chars_calls u (P : char -> Prop) (Pa : forall c, ascii c -> P c) (Pu : forall c, scalar_value c -> u = true \/ ascii c -> P c) es :
  Forall typed_event es -> forall c, I u c -> exists d r c',
  I u c' /\ Forall P d /\ forall l, emitted l = es -> runs (run_calls l) c d r c'.
Proof.
  induction 1 as [|e es He Hes IH]; intros c Hc.
  - exists [], (Ok tt), c. split; [exact Hc|]. split; [constructor|]. induction l as [|[e|] l IHl]; intros H.
    + apply runs_ret.
    + discriminate H.
    + exact (runs_seq _ _ _ [] c [] _ _ (runs_flush c) (IHl H)).
  - destruct (K_emit u P Pa Pu e He c Hc) as (d1 & r1 & c1 & R1 & F1 & N1 & _). destruct (is_ok r1) eqn:E1.
    + destruct r1 as [[]|?|?|]; try discriminate E1. destruct (IH c1 N1) as (d2 & r2 & c2 & N2 & F2 & R2).
      exists (d1 ++ d2), r2, c2. split; [exact N2|]. split; [apply Forall_app; auto|]. induction l as [|[e'|] l IHl]; intros H.
      * discriminate H.
      * injection H as -> H. exact (runs_bind _ _ _ _ _ _ _ _ _ R1 (R2 l H)).
      * exact (runs_seq _ _ _ [] c _ _ _ (runs_flush c) (IHl H)).
    + exists d1, (recast r1), c1. split; [exact N1|]. split; [exact F1|]. induction l as [|[e'|] l IHl]; intros H.
      * discriminate H.
      * injection H as -> H. exact (runs_bind_stop _ _ _ _ _ _ E1 R1).
      * exact (runs_seq _ _ _ [] c _ _ _ (runs_flush c) (IHl H)).
Qed.
Lemma started_I ev st plan : I (st_unicode st) (core (started ev st plan)).
Proof. split; [apply started_nice|]. split; [reflexivity|]. split; constructor. Qed.
