(** SaveRun.v -- saving documents is emitting the events of their walks. *)
From Coq Require Import Lia ZifyBool ZifyNat ZifyN Bool.
From Verif Require Import Base State EState Emitter Document Api Spec_Events Spec_Document Spec_Dump Spec_EmitNames Spec_Canonical Spec_Save ScanFacts EmitSession DumpAnchors DumpOpen DumpFacts DumpAll DumpTree Prop_Dump SaveFacts SaveLoad Spec_Emitter.
Open Scope Z_scope.

Definition nm (d : document) : Z -> option str := anchor_names 0 (d_nodes d).
Definition doc_evs (d : document) (w : walk) : list event_data :=
  EvDocumentStart (d_version_directive d) (d_tag_directives d) (d_start_implicit d) :: wev (d_nodes d) (nm d) w ++ [EvDocumentEnd (d_end_implicit d)].
Fixpoint all_evs (l : list (document * walk)) : list event_data :=
  match l with [] => [EvStreamEnd] | (d, w) :: r => doc_evs d w ++ all_evs r end.
Definition walked (p : document * walk) : Prop :=
  sound_document (fst p) /\ (exists seen, walks (d_nodes (fst p)) [] (snd p) seen) /\ goes_to (snd p) = 1 /\
  (forall k, In k (revisited (snd p)) -> (2 <= occurrences k (root_references (d_nodes (fst p))))%nat).
Lemma walked_named d w : walked (d, w) -> named (nm d) (revisited w).
Proof. intros (_ & _ & _ & R) k Hk. apply named_iff, R, Hk. Qed.
Lemma nm_inj d : forall j k a, nm d j = Some a -> nm d k = Some a -> j = k.
Proof.
  intros j k a Hj Hk. unfold nm, anchor_names in *. destruct (number_in 0 j _) as [x|] eqn:Ej; [|discriminate]. destruct (number_in 0 k _) as [y|] eqn:Ek; [|discriminate].
  injection Hj as Hj. injection Hk as Hk. assert (x = y).
  { pose proof (number_in_pos _ _ _ _ Ej). pose proof (number_in_pos _ _ _ _ Ek). apply generate_inj; [lia|lia|congruence]. }
  subst y. eapply number_in_inj; eassumption.
Qed.
Lemma map_some_inj {A} (a : list A) : forall b, map Some a = map Some b -> a = b.
Proof. induction a as [|x a IH]; intros [|y b] H; try discriminate; [reflexivity|]. cbn in H. injection H as -> H. f_equal. auto. Qed.
(** The flags and tables that make no difference. *)
Definition like (a b : bool) (A : list EState.anchors) (l : Z) (s : est) : est := wo a b (wa A l s).
Lemma emit_all_like evs : forall a b A l s, emit_all evs (like a b A l s) = let (r, s') := emit_all evs s in (r, like a b A l s').
Proof.
  induction evs as [|x evs IH]; intros a b A l s; [reflexivity|]. cbn [emit_all]. unfold bind, like. rewrite O_emit, A_emit. destruct (emit (event_new x) s) as [[[]|e|e|] s1]; [|reflexivity..].
  apply IH.
Qed.
Lemma emit_all_app x : forall y s, emit_all (x ++ y) s = (emit_all x ;; emit_all y) s.
Proof.
  induction x as [|e x IH]; intros y s; [reflexivity|]. cbn [app emit_all]. unfold bind. destruct (emit (event_new e) s) as [[[]|z|z|] s1]; [|reflexivity..]. rewrite IH. reflexivity.
Qed.
Lemma dump_doc d w s : walked (d, w) -> em_last_anchor_id s = 0 ->
  does_as (dump d) (opening_if_needed (emit_all (doc_evs d w))) s /\ (fst (dump d s) = Ok tt -> em_anchors (snd (dump d s)) = [] /\ em_last_anchor_id (snd (dump d s)) = 0).
Proof.
  intros Hw HL. pose proof (walked_named _ _ Hw) as Hn. destruct Hw as (Hd & (seen & W) & G & R). cbn [fst snd] in *.
  destruct (C23_dump_sends_the_walk d s w seen Hd ltac:(lia) W G) as [_ Q]. split; [|exact Q].
  destruct (C23_shared_nodes_are_anchored d s w seen Hd ltac:(lia) W G R) as (_ & _ & es & E & D). rewrite HL in E. fold (nm d) in E.
  replace (doc_evs d w) with es; [exact D|]. apply map_some_inj. rewrite <- E. unfold document_events, doc_evs. rewrite (proj1 (wev_some (d_nodes d) (nm d)) _ _ _ W Hn). cbn [map]. rewrite map_app. reflexivity.
Qed.
Definition result (x : res unit * est) : res unit * option writer := (fst x, em_writer (snd x)).
Lemma save_opened : forall l A s, Forall walked l ->
  result (save (map fst l) (like true false A 0 s)) = result (emit_all (all_evs l) s).
Proof.
  induction l as [|[d w] l IH]; intros A s F.
  - cbn [map save all_evs emit_all]. unfold emitter_close. rewrite b_get. cbn [em_opened em_closed like wo wa set_em_opened set_em_closed negb].
    unfold bind at 1. unfold like. rewrite O_emit, A_emit. unfold bind. destruct (emit (event_new EvStreamEnd) s) as [[[]|e|e|] s1]; reflexivity.
  - cbn [map fst save all_evs]. pose proof (Forall_inv F) as Hw. destruct (dump_doc d w (like true false A 0 s) Hw eq_refl) as [[D1 (A' & l' & D2)] D3].
    assert (Eo : opening_if_needed (emit_all (doc_evs d w)) (like true false A 0 s) = emit_all (doc_evs d w) (like true false A 0 s)) by reflexivity.
    rewrite Eo, emit_all_like in D1, D2. unfold result. rewrite emit_all_app. unfold bind. destruct (emit_all (doc_evs d w) s) as [r s1]. cbn [fst snd] in D1, D2.
    destruct (dump d (like true false A 0 s)) as [r2 s2]. cbn [fst snd] in *. subst r2 s2. destruct r as [[]|e|e|]; try reflexivity.
    destruct (D3 eq_refl) as [D4 D5]. cbn in D5. subst l'. change (set_em_last_anchor_id 0 (set_em_anchors A' (like true false A 0 s1))) with (like true false A' 0 s1). apply (IH A' s1 (Forall_inv_tail F)).
Qed.
Lemma save_new l s : Forall walked l -> l <> [] -> em_last_anchor_id s = 0 -> em_opened s = false -> em_closed s = false ->
  result (save (map fst l) s) = result (emit_all (EvStreamStart EncAny :: all_evs l) s).
Proof.
  intros F Hne HL Ho Hc. destruct l as [|[d w] l]; [contradiction|]. cbn [map fst save all_evs]. pose proof (Forall_inv F) as Hw.
  destruct (dump_doc d w s Hw HL) as [[D1 (A' & l' & D2)] D3]. unfold opening_if_needed in D1, D2. rewrite Ho in D1, D2.
  assert (Eo : emitter_open s = let (r, s1) := emit (event_new (EvStreamStart EncAny)) s in (r, match r with Ok _ => set_em_opened true s1 | _ => s1 end)).
  { unfold emitter_open. rewrite b_get, Ho. unfold bind. destruct (emit (event_new (EvStreamStart EncAny)) s) as [[[]|e|e|] s1]; reflexivity. }
  unfold result. cbn [emit_all]. unfold bind. unfold bind in D1, D2. rewrite Eo in D1, D2. clear Eo.
  assert (Hk : let s1 := snd (emit (event_new (EvStreamStart EncAny)) s) in em_closed s1 = false /\ em_last_anchor_id s1 = 0).
  { pose proof (O_emit (event_new (EvStreamStart EncAny)) s (em_opened s) (em_closed s)) as H1. replace (wo (em_opened s) (em_closed s) s) with s in H1 by (destruct s; reflexivity).
    pose proof (A_emit (event_new (EvStreamStart EncAny)) s (em_anchors s) (em_last_anchor_id s)) as H2. rewrite <- wa_self in H2. destruct (emit (event_new (EvStreamStart EncAny)) s) as [r s1]. injection H1 as H1. injection H2 as H2. cbn [snd].
    split; [rewrite H1, <- Hc; reflexivity|rewrite H2, <- HL; reflexivity]. }
  destruct (emit (event_new (EvStreamStart EncAny)) s) as [r s1]. cbn [snd] in Hk. destruct Hk as [Hc1 Hl1]. destruct (dump d s) as [r2 s2]. cbn [fst snd] in D1, D2, D3.
  destruct r as [[]|e|e|]; [|cbn [fst snd] in *; subst; reflexivity..].
  rewrite emit_all_app. unfold bind. assert (El : set_em_opened true s1 = like true false (em_anchors s1) 0 s1).
  { unfold like, wo, wa. rewrite <- Hl1, <- Hc1. destruct s1; reflexivity. }
  rewrite El, emit_all_like in D1, D2. destruct (emit_all (doc_evs d w) s1) as [r3 s3]. cbn [fst snd] in *. subst r2 s2.
  destruct r3 as [[]|e|e|]; [|reflexivity..]. destruct (D3 eq_refl) as [_ D5]. cbn in D5. subst l'.
  change (set_em_last_anchor_id 0 (set_em_anchors A' (like true false (em_anchors s1) 0 s3))) with (like true false A' 0 s3). apply (save_opened l A' s3 (Forall_inv_tail F)).
Qed.
Lemma emit_all_calls l : forall s, emit_all l s = run_calls (map (fun d => CEmit (event_new d)) l) s.
Proof. induction l as [|x l IH]; intros s; [reflexivity|]. cbn [emit_all map run_calls run_call]. unfold bind. destruct (emit (event_new x) s) as [[[]|e|e|] s1]; [apply IH|reflexivity..]. Qed.
Lemma new_flags st plan : em_last_anchor_id (new_emitter st plan) = 0 /\ em_opened (new_emitter st plan) = false /\ em_closed (new_emitter st plan) = false.
Proof. destruct st as [[] c i w u b]; unfold new_emitter, configure; cbn; auto. Qed.
