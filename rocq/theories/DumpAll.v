(** DumpAll.v -- dumping a whole document. *)
From Verif Require Import Base State EState Emitter Document Spec_Document Spec_Dump EmitSession DumpAnchors DumpFacts.
From Coq Require Import Lia ZifyBool ZifyNat ZifyN.
Open Scope Z_scope.

Lemma wa_wa A l B m s : wa A l (wa B m s) = wa A l s. Proof. reflexivity. Qed.
Lemma wa_self s : s = wa (em_anchors s) (em_last_anchor_id s) s. Proof. destruct s; reflexivity. Qed.
Lemma id_name L0 nodes k : 0 <= L0 ->
  (if id_in L0 (root_references nodes) k =? 0 then None else Some (generate_anchor (id_in L0 (root_references nodes) k))) = anchor_names L0 nodes k.
Proof.
  intros H. unfold id_in, anchor_names. destruct (number_in L0 k (seconds [] (root_references nodes))) as [i|] eqn:E; [|reflexivity].
  apply number_in_pos in E. replace (i =? 0) with false by lia. reflexivity.
Qed.
Lemma ctab_atab nodes L0 : ctab (length nodes) L0 (root_references nodes) =
  atab nodes (fun j => Z.of_nat (occurrences j (root_references nodes))) (id_in L0 (root_references nodes)) [].
Proof. reflexivity. Qed.

Lemma bind_assoc {S X Y Z} (m : M S X) (f : X -> M S Y) (g : Y -> M S Z) s : bind (bind m f) g s = bind m (fun x => bind (f x) g) s.
Proof. unfold bind. destruct (m s) as [[x|x|x|] s1]; reflexivity. Qed.

Lemma bok {S X Y} (m : M S X) (k : X -> M S Y) s x s1 : m s = (Ok x, s1) -> bind m k s = k x s1. Proof. intros H. unfold bind. rewrite H. reflexivity. Qed.
Lemma bnot {S X Y} (m : M S X) (k : X -> M S Y) s r s1 : m s = (r, s1) -> (forall x, r <> Ok x) ->
  bind m k s = (match r with Ok _ => Fuel | Err x => Err x | Panic x => Panic x | Fuel => Fuel end, s1).
Proof. intros H N. unfold bind. rewrite H. destruct r; [exfalso; eapply N; reflexivity|reflexivity..]. Qed.

Definition opening (s : est) : M est unit := if em_opened s then ret tt else emitter_open.
Definition same_out (L0 : Z) (m q : M est unit) (s s' : est) : Prop :=
  fst (m s) = fst (q s') /\ exists A l, snd (m s) = wa A l (snd (q s')).

Lemma document_part d w seen L0 A0 s : Forall (sound_node (Z.of_nat (length (d_nodes d)))) (d_nodes d) -> d_nodes d <> [] ->
  walks (d_nodes d) [] w seen -> goes_to w = 1 -> 0 <= L0 ->
  let m := modify (set_em_anchors (repeat anchors_default (length (d_nodes d)))) ;;
     emit (event_new (EvDocumentStart (d_version_directive d) (d_tag_directives d) (d_start_implicit d))) ;;
     anchor_node (d_nodes d) 1 ;;
     run_dump (d_nodes d) (dump_node (S (length (d_nodes d))) 1) ;;
     emit (event_new (EvDocumentEnd (d_end_implicit d))) in
  let q := send_all (document_events d (anchor_names L0 (d_nodes d)) w) in
  fst (m (wa A0 L0 s)) = fst (q s) /\ exists A l, snd (m (wa A0 L0 s)) = wa A l (snd (q s)).
Proof.
  intros Hs Hn W G HL m q. subst m q. unfold document_events. cbn [send_all send].
  rewrite b_modify. change (set_em_anchors ?r (wa A0 L0 s)) with (wa r L0 s).
  assert (AE : forall e A l t, emit e (wa A l t) = (fst (emit e t), wa A l (snd (emit e t)))) by (intros e A l t; rewrite A_emit; destruct (emit e t); reflexivity).
  set (ev := event_new _). specialize (AE ev) as AE1. destruct (emit ev s) as [r s1] eqn:E1.
  assert (E2 : forall A l, emit ev (wa A l s) = (r, wa A l s1)) by (intros A l; rewrite AE1, E1; reflexivity). clear AE1.
  destruct r as [[]|x|x|].
  2-4: (rewrite (bnot _ _ _ _ _ (E2 _ _)), (bnot _ _ _ _ _ E1) by discriminate; cbn [fst snd]; split; [reflexivity|eauto]).
  rewrite (bok _ _ _ _ _ (E2 _ _)), (bok _ _ _ _ _ E1).
  rewrite (bok _ _ _ _ _ (anchors_counted _ L0 s1 Hs Hn)). rewrite ctab_atab. rewrite send_app.
  destruct (walk_sim (d_nodes d) (fun j => Z.of_nat (occurrences j (root_references (d_nodes d)))) (id_in L0 (root_references (d_nodes d)))
     (last_id L0 (root_references (d_nodes d))) (anchor_names L0 (d_nodes d)) (fun k => id_name L0 _ k HL)) as (H & _ & _).
  assert (S0 : seen_ok (d_nodes d) []) by (split; constructor).
  specialize (H [] w seen W S0 (S (length (d_nodes d))) ltac:(cbn [length]; lia) s1). rewrite G, left_nil in H.
  destruct H as (D & E & (A & F) & K).
  match type of E with _ ?st0 = _ => set (st := ds_em st0) end.
  assert (E3 : run_dump (d_nodes d) (dump_node (S (length (d_nodes d))) 1) st = (fst (send_all (events_of_walk (d_nodes d) (anchor_names L0 (d_nodes d)) w) s1), ds_em D)).
  { unfold run_dump. subst st. cbn [ds_em]. rewrite E. reflexivity. }
  change (wa (atab _ _ _ []) _ s1) with st. rewrite F in E3. clear E K.
  destruct (send_all (events_of_walk (d_nodes d) (anchor_names L0 (d_nodes d)) w) s1) as [r s2] eqn:E4. cbn [fst snd] in *.
  destruct r as [[]|x|x|].
  2-4: (rewrite (bnot _ _ _ _ _ E3), (bnot _ _ _ _ _ E4) by discriminate; cbn [fst snd]; split; [reflexivity|eauto]).
  rewrite (bok _ _ _ _ _ E3), (bok _ _ _ _ _ E4). rewrite send_one. unfold send. rewrite AE. cbn [fst snd]. split; [reflexivity|eauto].
Qed.

Lemma reset_eq s : reset_anchors s = (Ok tt, wa [] 0 s). Proof. reflexivity. Qed.
Lemma dump_all d s w seen : Forall (sound_node (Z.of_nat (length (d_nodes d)))) (d_nodes d) -> d_nodes d <> [] ->
  walks (d_nodes d) [] w seen -> goes_to w = 1 -> 0 <= em_last_anchor_id s ->
  let q := opening s ;; send_all (document_events d (anchor_names (em_last_anchor_id s) (d_nodes d)) w) in
  fst (dump d s) = fst (q s) /\ exists A l, snd (dump d s) = wa A l (snd (q s)) /\ (fst (q s) = Ok tt -> A = [] /\ l = 0).
Proof.
  intros Hs Hn W G HL q. subst q. unfold dump. rewrite b_get. unfold opening.
  assert (Tail : forall s1, em_last_anchor_id s1 = em_last_anchor_id s ->
    let q := send_all (document_events d (anchor_names (em_last_anchor_id s) (d_nodes d)) w) in
    let m := (if is_empty (d_nodes d) then emitter_close else
      modify (set_em_anchors (repeat anchors_default (length (d_nodes d)))) ;;
     emit (event_new (EvDocumentStart (d_version_directive d) (d_tag_directives d) (d_start_implicit d))) ;;
     anchor_node (d_nodes d) 1 ;;
     run_dump (d_nodes d) (dump_node (S (length (d_nodes d))) 1) ;;
     emit (event_new (EvDocumentEnd (d_end_implicit d)))) ;; reset_anchors in
    fst (m s1) = fst (q s1) /\ exists A l, snd (m s1) = wa A l (snd (q s1)) /\ (fst (q s1) = Ok tt -> A = [] /\ l = 0)).
  { intros s1 E q m. subst q m. replace (is_empty (d_nodes d)) with false by (destruct (d_nodes d); [congruence|reflexivity]).
    pose proof (document_part d w seen (em_last_anchor_id s) (em_anchors s1) s1 Hs Hn W G HL) as P. rewrite <- E, <- wa_self, E in P. cbv zeta in P.
    match goal with |- context [bind ?m (fun _ => reset_anchors)] => set (mm := m) in * end.
    destruct (mm s1) as [r s2] eqn:E1; cbn [fst snd] in *; destruct P as [P1 (A & l & P2)].
    assert (E2 : bind mm (fun _ => reset_anchors) s1 = match r with Ok _ => (Ok tt, wa [] 0 s2) | Err x => (Err x, s2) | Panic x => (Panic x, s2) | Fuel => (Fuel, s2) end)
      by (unfold bind; rewrite E1; destruct r as [[]|x|x|]; [apply reset_eq|reflexivity..]).
    rewrite E2. rewrite <- P1. destruct r as [[]|x|x|]; cbn [fst snd].
    - split; [reflexivity|]. exists [], 0. rewrite P2. split; [reflexivity|auto].
    - split; [reflexivity|]. exists A, l. split; [exact P2|discriminate].
    - split; [reflexivity|]. exists A, l. split; [exact P2|discriminate].
    - split; [reflexivity|]. exists A, l. split; [exact P2|discriminate]. }
  cbv zeta in Tail. destruct (em_opened s) eqn:Eo.
  - rewrite (bok (ret tt) _ s tt s eq_refl), (bok (ret tt) _ s tt s eq_refl). apply Tail. reflexivity.
  - assert (O : em_last_anchor_id (snd (emitter_open s)) = em_last_anchor_id s).
    { pose proof (A_open s (em_anchors s) (em_last_anchor_id s)) as H. rewrite <- wa_self in H. destruct (emitter_open s) as [r s1]. cbn [snd]. injection H as H. rewrite H. reflexivity. }
    set (op := fun s0 : est => match emitter_open s0 with (Err x, s') => (reset_anchors ;; @fail est unit x) s' | r => r end) in *.
    assert (OP : op s = match emitter_open s with (Err x, s') => (reset_anchors ;; fail x) s' | r => r end) by reflexivity.
    destruct (emitter_open s) as [r s1] eqn:E1; cbn [fst snd] in *. destruct r as [[]|x|x|].
    + rewrite (bok op _ _ _ _ OP), (bok emitter_open _ _ _ _ E1). apply Tail. exact O.
    + assert (OP2 : op s = (Err x, wa [] 0 s1)) by (rewrite OP; reflexivity).
      rewrite (bnot op _ _ _ _ OP2), (bnot emitter_open _ _ _ _ E1) by discriminate. cbn [fst snd]. split; [reflexivity|]. exists [], 0. split; [reflexivity|discriminate].
    + rewrite (bnot op _ _ _ _ OP), (bnot emitter_open _ _ _ _ E1) by discriminate. cbn [fst snd]. split; [reflexivity|]. exists (em_anchors s1), (em_last_anchor_id s1). split; [apply wa_self|discriminate].
    + rewrite (bnot op _ _ _ _ OP), (bnot emitter_open _ _ _ _ E1) by discriminate. cbn [fst snd]. split; [reflexivity|]. exists (em_anchors s1), (em_last_anchor_id s1). split; [apply wa_self|discriminate].
Qed.
