(** Prop_WideSave.v -- C55: documents saved in UTF-16 are loaded again, if the bytes come one by one.

    As C48 and C43, with UTF-16 output. *)
From Coq Require Import Lia ZifyBool ZifyNat ZifyN Bool.
From Verif Require Import Base Utf Chars State Reader Scanner Parser ScanFacts EState Emitter Document Api Spec_Scanner Spec_Reader Spec_Parser Spec_Events EventFacts Spec_Document Spec_Dump LoadSession Prop_Document DumpFacts DumpTree
  Spec_Emitter Spec_EmitNames Prop_Emitter EmitSession EmitIo Prop_EmitGrammar Spec_Canonical Spec_Layout Spec_Save Spec_Kept SaveFacts SaveLoad SaveRun Prop_Dump Prop_Save LaySave Prop_Layout.
From Verif Require Import Prop_Kept Prop_Wide.
From Verif Require Prop_Canonical.
Open Scope N_scope.

Theorem C55_documents : forall st plan ds enc,
  st_canonical st = false -> effective_encoding (st_encoding st) EncAny = enc -> enc = Utf16Le \/ enc = Utf16Be ->
  ds <> [] -> Forall storable ds -> Forall (fun d => Forall node_foldable (d_nodes d)) ds -> invisible (hd no_document ds) = false ->
  N.of_nat (volume ds) < 214748363 ->
  exists r s', save ds (new_emitter st plan) = (r, s') /\
  (r = Ok tt \/ exists k, r = Err (EIo (OtherIo k)) /\ In k (write_failures (new_emitter st plan))) /\
  (r = Ok tt -> forall dbg i, delivers16 i (output s') ->
    exists ds', Forall2 kept_document ds ds' /\
    forall k, fst (calls load (length ds + k) (parser_start dbg EncAny i)) = map Ok ds' ++ repeat (Ok no_document) k).
Proof.
  intros st plan ds enc Hcan Henc Hle Hne Hs Hnb Hinv Hvol.
  assert (Hw : exists l, map fst l = ds /\ Forall fine l).
  { clear Hne Hvol Hnb Hinv. induction Hs as [|d ds Hd _ (l & <- & F)]; [exists []; auto|]. pose proof Hd as (D1 & D2 & _ & _ & _ & _ & _ & D3).
    destruct (C23_every_document_can_be_walked d (conj D1 D2)) as (w & seen & W & G & _). exists ((d, w) :: l). split; [reflexivity|]. constructor; [|exact F]. split; [exact Hd|].
    split; [split; assumption|]. split; [exists seen; exact W|]. split; [exact G|]. intros k Hk. exact (D3 w seen k W G Hk). }
  destruct Hw as (l & <- & F). assert (Fw : Forall walked l) by (eapply Forall_impl; [|exact F]; intros p Hp; apply Hp).
  assert (Hl : l <> []) by (intros ->; apply Hne; reflexivity).
  set (cl := map (fun d => CEmit (event_new d)) (all_evs l)).
  assert (Hem : map e_data (emitted cl) = all_evs l) by (unfold cl; clear; induction (all_evs l) as [|x r IH]; [reflexivity|]; cbn; f_equal; exact IH).
  pose proof (evs_valid l F) as Hval. pose proof (evs_length l Fw) as Hlen.
  assert (Hq : forall P, Forall P (all_evs l) -> Forall (fun e => P (e_data e)) (emitted cl)) by (intros P HP; rewrite <- Hem in HP; exact (proj1 (Forall_map _ _ _) HP)).
  destruct (C55_utf16_round_trip st plan EncAny cl enc Hcan Henc Hle) as (r & s1 & R1 & R2 & R3).
  - rewrite Hem. destruct (evs_documents l Fw) as (docs & Hd & ->). exists EncAny, docs. auto.
  - rewrite Hem. destruct l as [|[d w] l0]; [contradiction|discriminate].
  - apply (Hq (valid_event false)). eapply Forall_impl; [|exact Hval]. intros x Hx. apply valid_weaker, Hx.
  - apply (Hq plain_data). eapply Forall_impl; [|exact Hval]. intros x Hx. apply Hx.
  - rewrite Hem. apply evs_abbreviable, F.
  - apply (Hq foldable). apply evs_foldable; assumption.
  - rewrite Hem. apply short_shallow. lia.
  - rewrite Hem. destruct l as [|[d w] l0]; [contradiction|]. apply evs_root; [exact (Forall_inv F)|exact Hinv].
  - destruct (new_flags st plan) as (N1 & N2 & N3). pose proof (save_new l _ Fw Hl N1 N2 N3) as Hsave. rewrite emit_all_calls in Hsave. cbn [map] in Hsave. fold cl in Hsave. change (run_calls (CEmit (event_new (EvStreamStart EncAny)) :: cl)) with (Spec_Emitter.session EncAny cl) in Hsave. rewrite R1 in Hsave.
    destruct (save (map fst l) (new_emitter st plan)) as [r2 s2]. unfold result in Hsave. cbn [fst snd] in Hsave. injection Hsave as -> Hwr.
    exists r, s2. split; [reflexivity|]. split; [exact R2|]. intros Hr dbg i Hi.
    assert (Ho : output s2 = output s1) by (unfold output; rewrite Hwr; reflexivity). rewrite Ho in Hi. set (e := EncAny).
    destruct (R3 Hr dbg i Hi) as (es & Ees & Hcalls). rewrite Hem in Ees.
    destruct (keep_evs l F es Ees) as (ds' & Hsa & Hdf). exists ds'. split; [exact Hsa|]. intros k.
    specialize (Hcalls 0%nat). cbn [repeat] in Hcalls. rewrite app_nil_r, Nat.add_0_r in Hcalls. set (e0 := Mk_event (EvStreamStart enc) mark0 mark0) in *. change (S (length es)) with (length (e0 :: es)) in Hcalls.
    change (Ok (Some e0) :: map (fun e => Ok (Some e)) es) with (map (fun e : event => @Ok (option event) (Some e)) (e0 :: es)) in Hcalls. change EncAny with e in Hcalls |- *.
    destruct (calls parser_next (length (e0 :: es)) (parser_start dbg e i)) as [os q] eqn:Eq. cbn [fst] in Hcalls. subst os.
    pose proof (C20_events_are_loaded dbg e i e0 es _ q Eq (Hdf k)) as Hload. rewrite app_length, repeat_length in Hload.
    assert (Hdl : length ds' = length (map fst l)) by (clear -Hsa; induction Hsa; cbn; congruence).
    replace (length ds' + S k)%nat with ((length (map fst l) + k) + 1)%nat in Hload by lia. rewrite LoadSession.calls_add in Hload.
    destruct (calls load (length (map fst l) + k) (parser_start dbg e i)) as [os q1]. cbn [fst]. destruct (calls load 1 q1) as [os1 q2] eqn:E1. cbn [fst] in Hload.
    cbn [calls] in E1. destruct (load q1) as [r1 q3]. injection E1 as <- _.
    replace (S k) with (k + 1)%nat in Hload by lia. rewrite repeat_app in Hload. cbn [repeat] in Hload. rewrite map_app, map_app, app_assoc in Hload. apply app_inj_tail in Hload. destruct Hload as [-> _].
    f_equal. clear. induction k; [reflexivity|]. cbn. f_equal. exact IHk.
Qed.
Theorem C55_documents_canonical : forall st plan ds enc,
  st_canonical st = true -> effective_encoding (st_encoding st) EncAny = enc -> enc = Utf16Le \/ enc = Utf16Be ->
  ds <> [] -> Forall storable ds -> N.of_nat (volume ds) < 2147483647 ->
  exists r s', save ds (new_emitter st plan) = (r, s') /\
  (r = Ok tt \/ exists k, r = Err (EIo (OtherIo k)) /\ In k (write_failures (new_emitter st plan))) /\
  (r = Ok tt -> forall dbg i, delivers16 i (output s') ->
    exists ds', saved_as ds ds' /\
    forall k, fst (calls load (length ds + k) (parser_start dbg EncAny i)) = map Ok ds' ++ repeat (Ok no_document) k).
Proof.
  intros st plan ds enc Hcan Henc Hle Hne Hs Hvol.
  assert (Hw : exists l, map fst l = ds /\ Forall fine l).
  { clear Hne Hvol. induction Hs as [|d ds Hd _ (l & <- & F)]; [exists []; auto|]. pose proof Hd as (D1 & D2 & _ & _ & _ & _ & _ & D3).
    destruct (C23_every_document_can_be_walked d (conj D1 D2)) as (w & seen & W & G & _). exists ((d, w) :: l). split; [reflexivity|]. constructor; [|exact F]. split; [exact Hd|].
    split; [split; assumption|]. split; [exists seen; exact W|]. split; [exact G|]. intros k Hk. exact (D3 w seen k W G Hk). }
  destruct Hw as (l & <- & F). assert (Fw : Forall walked l) by (eapply Forall_impl; [|exact F]; intros p Hp; apply Hp).
  assert (Hl : l <> []) by (intros ->; apply Hne; reflexivity).
  set (cl := map (fun d => CEmit (event_new d)) (all_evs l)).
  assert (Hem : map e_data (emitted cl) = all_evs l) by (unfold cl; clear; induction (all_evs l) as [|x r IH]; [reflexivity|]; cbn; f_equal; exact IH).
  pose proof (evs_valid l F) as Hval. pose proof (evs_length l Fw) as Hlen.
  assert (Hq : forall P, Forall P (all_evs l) -> Forall (fun e => P (e_data e)) (emitted cl)) by (intros P HP; rewrite <- Hem in HP; exact (proj1 (Forall_map _ _ _) HP)).
  destruct (C55_utf16_round_trip_canonical st plan EncAny cl enc Hcan Henc Hle) as (r & s1 & R1 & R2 & R3).
  - rewrite Hem. destruct (evs_documents l Fw) as (docs & Hd & ->). exists EncAny, docs. auto.
  - rewrite Hem. destruct l as [|[d w] l0]; [contradiction|discriminate].
  - apply (Hq (valid_event true)). eapply Forall_impl; [|exact Hval]. intros x Hx. apply Hx.
  - apply (Hq plain_data). eapply Forall_impl; [|exact Hval]. intros x Hx. apply Hx.
  - rewrite Hem. apply evs_abbreviable, F.
  - rewrite <- (map_length e_data), Hem. lia.
  - destruct (new_flags st plan) as (N1 & N2 & N3). pose proof (save_new l _ Fw Hl N1 N2 N3) as Hsave. rewrite emit_all_calls in Hsave. cbn [map] in Hsave. fold cl in Hsave. change (run_calls (CEmit (event_new (EvStreamStart EncAny)) :: cl)) with (Spec_Emitter.session EncAny cl) in Hsave. rewrite R1 in Hsave.
    destruct (save (map fst l) (new_emitter st plan)) as [r2 s2]. unfold result in Hsave. cbn [fst snd] in Hsave. injection Hsave as -> Hwr.
    exists r, s2. split; [reflexivity|]. split; [exact R2|]. intros Hr dbg i Hi.
    assert (Ho : output s2 = output s1) by (unfold output; rewrite Hwr; reflexivity). rewrite Ho in Hi. set (e := EncAny).
    destruct (R3 Hr dbg i Hi) as (es & Ees & Hcalls). rewrite Hem in Ees.
    destruct (load_evs l F es Ees) as (ds' & Hsa & Hdf). exists ds'. split; [exact Hsa|]. intros k.
    specialize (Hcalls 0%nat). cbn [repeat] in Hcalls. rewrite app_nil_r, Nat.add_0_r in Hcalls. set (e0 := Mk_event (EvStreamStart enc) mark0 mark0) in *. change (S (length es)) with (length (e0 :: es)) in Hcalls.
    change (Ok (Some e0) :: map (fun e => Ok (Some e)) es) with (map (fun e : event => @Ok (option event) (Some e)) (e0 :: es)) in Hcalls. change EncAny with e in Hcalls |- *.
    destruct (calls parser_next (length (e0 :: es)) (parser_start dbg e i)) as [os q] eqn:Eq. cbn [fst] in Hcalls. subst os.
    pose proof (C20_events_are_loaded dbg e i e0 es _ q Eq (Hdf k)) as Hload. rewrite app_length, repeat_length in Hload.
    assert (Hdl : length ds' = length (map fst l)) by (clear -Hsa; induction Hsa; cbn; congruence).
    replace (length ds' + S k)%nat with ((length (map fst l) + k) + 1)%nat in Hload by lia. rewrite LoadSession.calls_add in Hload.
    destruct (calls load (length (map fst l) + k) (parser_start dbg e i)) as [os q1]. cbn [fst]. destruct (calls load 1 q1) as [os1 q2] eqn:E1. cbn [fst] in Hload.
    cbn [calls] in E1. destruct (load q1) as [r1 q3]. injection E1 as <- _.
    replace (S k) with (k + 1)%nat in Hload by lia. rewrite repeat_app in Hload. cbn [repeat] in Hload. rewrite map_app, map_app, app_assoc in Hload. apply app_inj_tail in Hload. destruct Hload as [-> _].
    f_equal. clear. induction k; [reflexivity|]. cbn. f_equal. exact IHk.
Qed.
Print Assumptions C55_documents.
Print Assumptions C55_documents_canonical.

(** The documents of the demonstration of C48, one of them cyclic, in UTF-16. *)
Definition demo_wide_save (enc : encoding) (can : bool) := save [demo_cyclic; demo_third] (new_emitter (Mk_settings enc can 3 24 true BrLn) []).
Example demo_wide_hyps : Forall storable [demo_cyclic; demo_third] /\ Forall (fun d => Forall node_foldable (d_nodes d)) [demo_cyclic; demo_third] /\
  invisible demo_cyclic = false /\ N.of_nat (volume [demo_cyclic; demo_third]) < 214748363.
Proof. exact demo_kept_hyps. Qed.
Example demo_wide_loaded :
  let o := output (snd (demo_wide_save Utf16Le false)) in
  fst (demo_wide_save Utf16Le false) = Ok tt /\ firstn 2 o = [255; 254] /\
  fst (calls load 3 (parser_start true EncAny (one_by_one o))) =
  fst (calls load 3 (parser_start true EncAny (one_by_one (output (snd (demo_wide_save Utf8 false)))))).
Proof. split; [vm_compute; reflexivity|]. split; vm_compute; reflexivity. Qed.
