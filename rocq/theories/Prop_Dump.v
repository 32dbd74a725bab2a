(** Prop_Dump.v -- C23 and C24: Document::dump (document.rs 571-725, emitter.rs 1814-1829). *)
From Coq Require Import Lia ZifyBool ZifyNat ZifyN Bool.
From Verif Require Import Base State Reader Scanner Parser EState Emitter Document Api Spec_Document Spec_Dump EmitSession DumpAnchors DumpFacts DumpAll DumpTree.
Open Scope Z_scope.

(** A document whose references are all in range (for instance one that was loaded: C19). *)
Definition sound_document (d : document) : Prop :=
  d_nodes d <> [] /\ Forall (sound_node (Z.of_nat (length (d_nodes d)))) (d_nodes d).
(** What [dump] does, apart from the emitter's own table of anchors, is what [m] does. *)
Definition does_as (m m' : M est unit) (s : est) : Prop :=
  fst (m s) = fst (m' s) /\ exists A l, snd (m s) = set_em_last_anchor_id l (set_em_anchors A (snd (m' s))).
Definition opening_if_needed (m : M est unit) : M est unit := fun s => if em_opened s then m s else (emitter_open ;; m) s.

(** ** C23, in general: whatever the document, it is walked through from its root, each node is
    described by its events when it is first met, and by an alias when it is met again. *)
Theorem C23_dump_sends_the_walk d s w seen : sound_document d -> 0 <= em_last_anchor_id s ->
  walks (d_nodes d) [] w seen -> goes_to w = 1 ->
  does_as (dump d) (opening_if_needed (send_all (document_events d (anchor_names (em_last_anchor_id s) (d_nodes d)) w))) s /\
  (fst (dump d s) = Ok tt -> em_anchors (snd (dump d s)) = [] /\ em_last_anchor_id (snd (dump d s)) = 0).
Proof.
  intros [Hn Hs] HL W G. destruct (dump_all d s w seen Hs Hn W G HL) as (A & B & l & C & D). unfold opening in *.
  assert (E : opening_if_needed (send_all (document_events d (anchor_names (em_last_anchor_id s) (d_nodes d)) w)) s =
     ((if em_opened s then ret tt else emitter_open) ;; send_all (document_events d (anchor_names (em_last_anchor_id s) (d_nodes d)) w)) s).
  { unfold opening_if_needed. destruct (em_opened s); reflexivity. }
  unfold does_as. rewrite E. split; [split; [exact A|exists B, l; exact C]|]. intros H. rewrite A in H. destruct (D H) as [-> ->]. rewrite C. split; reflexivity.
Qed.
(** There is such a walk for every document; it visits each node at most once. *)
Theorem C23_every_document_can_be_walked d : sound_document d ->
  exists w seen, walks (d_nodes d) [] w seen /\ goes_to w = 1 /\ NoDup seen.
Proof.
  intros [Hn Hs]. destruct (walk_exists (d_nodes d) Hs (length (d_nodes d)) [] 1) as (w & seen & W & G).
  - cbn. lia.
  - split; constructor.
  - unfold in_range. destruct (d_nodes d); [congruence|]. cbn [length]. lia.
  - exists w, seen. split; [exact W|]. split; [exact G|]. destruct (walk_seen (d_nodes d)) as (H & _ & _). apply (H _ _ _ W). split; constructor.
Qed.
(** An empty document closes the stream. *)
Theorem C23_empty_document_closes d s : d_nodes d = [] ->
  does_as (dump d) (opening_if_needed emitter_close) s.
Proof.
  intros E. unfold does_as, opening_if_needed, dump. rewrite b_get, E. cbn [is_empty].
  assert (T : forall s1, fst ((emitter_close ;; reset_anchors) s1) = fst (emitter_close s1) /\
    exists A l, snd ((emitter_close ;; reset_anchors) s1) = set_em_last_anchor_id l (set_em_anchors A (snd (emitter_close s1)))).
  { intros s1. destruct (emitter_close s1) as [r s2] eqn:Ec. destruct r as [[]|x|x|].
    - rewrite (bok _ _ _ _ _ Ec). rewrite reset_eq. split; [reflexivity|]. exists [], 0. reflexivity.
    - rewrite (bnot _ _ _ _ _ Ec) by discriminate. split; [reflexivity|]. exists (em_anchors s2), (em_last_anchor_id s2). apply wa_self.
    - rewrite (bnot _ _ _ _ _ Ec) by discriminate. split; [reflexivity|]. exists (em_anchors s2), (em_last_anchor_id s2). apply wa_self.
    - rewrite (bnot _ _ _ _ _ Ec) by discriminate. split; [reflexivity|]. exists (em_anchors s2), (em_last_anchor_id s2). apply wa_self. }
  destruct (em_opened s).
  - rewrite (bok (ret tt) _ s tt s eq_refl). apply T.
  - set (op := fun s0 : est => match emitter_open s0 with (Err x, s') => (reset_anchors ;; @fail est unit x) s' | r => r end) in *.
    assert (OP : op s = match emitter_open s with (Err x, s') => (reset_anchors ;; fail x) s' | r => r end) by reflexivity.
    destruct (emitter_open s) as [r s1] eqn:E1. destruct r as [[]|x|x|].
    + rewrite (bok op _ _ _ _ OP), (bok emitter_open _ _ _ _ E1). apply T.
    + assert (OP2 : op s = (Err x, wa [] 0 s1)) by (rewrite OP; reflexivity).
      rewrite (bnot op _ _ _ _ OP2), (bnot emitter_open _ _ _ _ E1) by discriminate. split; [reflexivity|]. exists [], 0. reflexivity.
    + rewrite (bnot op _ _ _ _ OP), (bnot emitter_open _ _ _ _ E1) by discriminate. split; [reflexivity|]. exists (em_anchors s1), (em_last_anchor_id s1). apply wa_self.
    + rewrite (bnot op _ _ _ _ OP), (bnot emitter_open _ _ _ _ E1) by discriminate. split; [reflexivity|]. exists (em_anchors s1), (em_last_anchor_id s1). apply wa_self.
Qed.

(** ** C23, trees: exactly DOCUMENT-START, the events of the nodes in pre-order, DOCUMENT-END. *)
Theorem C23_tree_is_dumped_in_order d s : sound_document d -> 0 <= em_last_anchor_id s -> tree_shaped (d_nodes d) ->
  exists es, preorder (d_nodes d) 1 es /\ does_as (dump d) (opening_if_needed (emit_all (plain_events d es))) s.
Proof.
  intros Hd HL (w & seen & W & G & R). pose proof (tree_no_names (em_last_anchor_id s) _ _ _ W G R) as Nm.
  destruct (walk_preorder (d_nodes d) _ Nm) as (H & _ & _). destruct (H _ _ _ W R) as (es & A & B). rewrite G in A.
  exists es. split; [exact A|]. destruct (C23_dump_sends_the_walk d s w seen Hd HL W G) as [[X Y] _].
  assert (E : forall t, opening_if_needed (send_all (document_events d (anchor_names (em_last_anchor_id s) (d_nodes d)) w)) t = opening_if_needed (emit_all (plain_events d es)) t).
  { assert (E : forall t, send_all (document_events d (anchor_names (em_last_anchor_id s) (d_nodes d)) w) t = emit_all (plain_events d es) t).
    { intros t. rewrite <- send_some. unfold document_events, plain_events. rewrite B. cbn [map]. rewrite map_app. reflexivity. }
    intros t. unfold opening_if_needed. destruct (em_opened t); [apply E|]. unfold bind. destruct (emitter_open t) as [[[]|x|x|] t1]; [apply E|reflexivity..]. }
  unfold does_as. rewrite <- E. split; assumption.
Qed.
(** ** C23, sharing: if the root refers (at least) twice to each node that is met again (the root's
    own place in the document counts), then every alias has an anchor: there is no panic, and
    different nodes have different anchors. *)
Lemma all_named nodes name :
  (forall seen w seen', walks nodes seen w seen' -> (forall k, In k (revisited w) -> name k <> None) -> exists es, events_of_walk nodes name w = map Some es) /\
  (forall seen l seen', walks_list nodes seen l seen' -> (forall k, In k (flat_map revisited l) -> name k <> None) ->
     exists es, flat_map (events_of_walk nodes name) l = map Some es) /\
  (forall seen l seen', walks_pairs nodes seen l seen' -> (forall k, In k (flat_map (fun '(x, y) => revisited x ++ revisited y) l) -> name k <> None) ->
     exists es, flat_map (fun '(x, y) => events_of_walk nodes name x ++ events_of_walk nodes name y) l = map Some es).
Proof.
  apply (walks_mut nodes
   (fun seen w seen' _ => (forall k, In k (revisited w) -> name k <> None) -> exists es, events_of_walk nodes name w = map Some es)
   (fun seen l seen' _ => (forall k, In k (flat_map revisited l) -> name k <> None) -> exists es, flat_map (events_of_walk nodes name) l = map Some es)
   (fun seen l seen' _ => (forall k, In k (flat_map (fun '(x, y) => revisited x ++ revisited y) l) -> name k <> None) ->
     exists es, flat_map (fun '(x, y) => events_of_walk nodes name x ++ events_of_walk nodes name y) l = map Some es)).
  - intros seen k Hk R. cbn [events_of_walk]. destruct (name k) as [a|] eqn:E; [exists [EvAlias a]; reflexivity|]. exfalso. apply (R k); [left; reflexivity|exact E].
  - intros seen k n v st Hk Hn Hd _. cbn [events_of_walk]. rewrite Hn, Hd. eexists [_]. reflexivity.
  - intros seen k n l st seen' Hk Hn Hd Hl IH R. cbn [events_of_walk]. rewrite Hn, Hd. destruct (IH R) as (es & ->). eexists (_ :: es ++ [_]). cbn [map]. rewrite map_app. reflexivity.
  - intros seen k n l st seen' Hk Hn Hd Hl IH R. cbn [events_of_walk]. rewrite Hn, Hd. destruct (IH R) as (es & ->). eexists (_ :: es ++ [_]). cbn [map]. rewrite map_app. reflexivity.
  - intros seen _. exists []. reflexivity.
  - intros seen w s1 l s2 H1 I1 H2 I2 R. cbn [flat_map] in *. destruct I1 as (a & ->); [intros k Hk; apply R, in_or_app; auto|]. destruct I2 as (b & ->); [intros k Hk; apply R, in_or_app; auto|].
    exists (a ++ b). rewrite map_app. reflexivity.
  - intros seen _. exists []. reflexivity.
  - intros seen x s1 y s2 l s3 H1 I1 H2 I2 H3 I3 R. cbn [flat_map] in *. destruct I1 as (a & ->); [intros k Hk; apply R; rewrite !in_app_iff; auto|]. destruct I2 as (b & ->); [intros k Hk; apply R; rewrite !in_app_iff; auto|].
    destruct I3 as (c & ->); [intros k Hk; apply R; rewrite !in_app_iff; auto|]. exists ((a ++ b) ++ c). rewrite !map_app. reflexivity.
Qed.
Lemma one_unnamed nodes name k : name k = None ->
  (forall seen w seen', walks nodes seen w seen' -> In k (revisited w) -> In None (events_of_walk nodes name w)) /\
  (forall seen l seen', walks_list nodes seen l seen' -> In k (flat_map revisited l) -> In None (flat_map (events_of_walk nodes name) l)) /\
  (forall seen l seen', walks_pairs nodes seen l seen' -> In k (flat_map (fun '(x, y) => revisited x ++ revisited y) l) ->
     In None (flat_map (fun '(x, y) => events_of_walk nodes name x ++ events_of_walk nodes name y) l)).
Proof.
  intros N. apply (walks_mut nodes
   (fun seen w seen' _ => In k (revisited w) -> In None (events_of_walk nodes name w))
   (fun seen l seen' _ => In k (flat_map revisited l) -> In None (flat_map (events_of_walk nodes name) l))
   (fun seen l seen' _ => In k (flat_map (fun '(x, y) => revisited x ++ revisited y) l) ->
     In None (flat_map (fun '(x, y) => events_of_walk nodes name x ++ events_of_walk nodes name y) l))).
  - intros seen j Hj [->|[]]. cbn [events_of_walk]. rewrite N. left. reflexivity.
  - intros seen j n v st Hk Hn Hd [].
  - intros seen j n l st seen' Hk Hn Hd Hl IH R. cbn [events_of_walk]. rewrite Hn, Hd. right. apply in_or_app. left. apply IH, R.
  - intros seen j n l st seen' Hk Hn Hd Hl IH R. cbn [events_of_walk]. rewrite Hn, Hd. right. apply in_or_app. left. apply IH, R.
  - intros seen [].
  - intros seen w s1 l s2 H1 I1 H2 I2 R. cbn [flat_map] in *. rewrite in_app_iff in *. tauto.
  - intros seen [].
  - intros seen x s1 y s2 l s3 H1 I1 H2 I2 H3 I3 R. cbn [flat_map] in *. rewrite !in_app_iff in *. tauto.
Qed.
Lemma named_iff L nodes k : anchor_names L nodes k <> None <-> (2 <= occurrences k (root_references nodes))%nat.
Proof.
  unfold anchor_names. split.
  - intros H. destruct (number_in L k (seconds [] (root_references nodes))) eqn:E; [|congruence]. apply (seconds_twice k (root_references nodes) []). apply (number_in_some k _ L). rewrite E. discriminate.
  - intros H. assert (X : In k (seconds [] (root_references nodes))) by (apply twice_seconds; [cbn; lia|exact H]).
    apply (number_in_some k _ L) in X. destruct (number_in L k _); [discriminate|congruence].
Qed.
Theorem C23_shared_nodes_are_anchored d s w seen : sound_document d -> 0 <= em_last_anchor_id s ->
  walks (d_nodes d) [] w seen -> goes_to w = 1 ->
  (forall k, In k (revisited w) -> (2 <= occurrences k (root_references (d_nodes d)))%nat) ->
  let name := anchor_names (em_last_anchor_id s) (d_nodes d) in
  (forall k, In k (revisited w) -> exists a, name k = Some a) /\
  (forall j k a, name j = Some a -> name k = Some a -> j = k) /\
  exists es, document_events d name w = map Some es /\ does_as (dump d) (opening_if_needed (emit_all es)) s.
Proof.
  intros Hd HL W G R name. split; [|split].
  - intros k Hk. specialize (R k Hk). apply (named_iff (em_last_anchor_id s)) in R. fold name in R. destruct (name k) as [a|]; [eauto|congruence].
  - intros j k a Hj Hk. unfold name, anchor_names in *. destruct (number_in _ j _) as [x|] eqn:Ej; [|discriminate]. destruct (number_in _ k _) as [y|] eqn:Ek; [|discriminate].
    pose proof (number_in_pos _ _ _ _ Ej). pose proof (number_in_pos _ _ _ _ Ek).
    injection Hj as Hj. injection Hk as Hk. assert (x = y) by (apply generate_inj; [lia|lia|congruence]). subst y. eapply number_in_inj; eassumption.
  - destruct (all_named (d_nodes d) name) as (A & _ & _). destruct (A _ _ _ W) as (es & E); [intros k Hk; apply (named_iff (em_last_anchor_id s)); auto|].
    assert (X : document_events d name w = map Some (EvDocumentStart (d_version_directive d) (d_tag_directives d) (d_start_implicit d) :: es ++ [EvDocumentEnd (d_end_implicit d)])).
    { unfold document_events. rewrite E. cbn [map]. rewrite map_app. reflexivity. }
    eexists. split; [exact X|]. destruct (C23_dump_sends_the_walk d s w seen Hd HL W G) as [Y _]. fold name in Y. rewrite X in Y.
    match type of Y with does_as _ (opening_if_needed (send_all (map Some ?l))) _ => assert (Q : forall t, opening_if_needed (send_all (map Some l)) t = opening_if_needed (emit_all l) t) end.
    { intros t. unfold opening_if_needed. destruct (em_opened t); [apply send_some|]. unfold bind. destruct (emitter_open t) as [[[]|x|x|] t1]; [apply send_some|reflexivity..]. }
    unfold does_as in *. rewrite <- Q. exact Y.
Qed.
(** In all other cases the document cannot be dumped (document.rs 633: [anchor.unwrap()]). *)
Theorem C23_other_sharing_cannot_be_dumped d s w seen k : sound_document d -> 0 <= em_last_anchor_id s ->
  walks (d_nodes d) [] w seen -> goes_to w = 1 ->
  In k (revisited w) -> (occurrences k (root_references (d_nodes d)) < 2)%nat -> fst (dump d s) <> Ok tt.
Proof.
  intros Hd HL W G Hk Ho. destruct (C23_dump_sends_the_walk d s w seen Hd HL W G) as [[X _] _]. rewrite X. clear X.
  set (name := anchor_names (em_last_anchor_id s) (d_nodes d)).
  assert (N : name k = None) by (destruct (name k) as [a|] eqn:E; [|reflexivity]; exfalso; assert (name k <> None) by congruence; apply named_iff in H; lia).
  destruct (one_unnamed (d_nodes d) name k N) as (A & _ & _). specialize (A _ _ _ W Hk).
  assert (F : forall l t, In None l -> fst (send_all l t) <> Ok tt).
  { induction l as [|o l IH]; intros t Hin; [destruct Hin|]. cbn [send_all]. destruct Hin as [Hin|Hin].
    - subst o. discriminate.
    - destruct (send o t) as [r t1] eqn:E. destruct r as [[]|x|x|]; [rewrite (bok _ _ _ _ _ E); apply IH; assumption|rewrite (bnot _ _ _ _ _ E) by discriminate; discriminate..]. }
  assert (In None (document_events d name w)) by (right; apply in_or_app; left; exact A).
  unfold opening_if_needed. destruct (em_opened s); [apply F; assumption|].
  destruct (emitter_open s) as [r t1] eqn:E. destruct r as [[]|x|x|]; [rewrite (bok _ _ _ _ _ E); apply F; assumption|rewrite (bnot _ _ _ _ _ E) by discriminate; discriminate..].
Qed.

(** ** C24: what is dumped can be loaded again.  [es]: the events [dump] sends for a tree, with any marks. *)
Theorem C24_events_load_the_same_tree d evs es : sound_document d -> preorder (d_nodes d) 1 evs -> map e_data es = plain_events d evs ->
  exists d', document_of es d' /\
    (exists v, has_value (d_nodes d) 1 v) /\ (forall v, has_value (d_nodes d') 1 v <-> has_value (d_nodes d) 1 v) /\
    d_version_directive d' = d_version_directive d /\ d_tag_directives d' = d_tag_directives d /\
    d_start_implicit d' = d_start_implicit d /\ d_end_implicit d' = d_end_implicit d.
Proof.
  intros Hd P E. unfold plain_events in E. destruct es as [|[x s0 e0] es]; [discriminate|]. cbn [map e_data] in E. injection E as -> E.
  apply map_eq_app in E. destruct E as (es1 & es2 & -> & E1 & E2). apply one_map in E2. destruct E2 as ([x s1 e1] & -> & E2). cbn in E2. subst x.
  destruct (load_preorder (d_nodes d)) as (A & _ & _). destruct (A _ _ P _ E1) as (t & v & T & V & L). destruct (L [] 0 ltac:(lia)) as (ns & N & Q).
  exists (Mk_doc ns (d_version_directive d) (d_tag_directives d) (d_start_implicit d) (d_end_implicit d) s0 e1).
  assert (V' : has_value ns 1 v).
  { apply (Q ns). intros i nd Hi. unfold kth_node. replace (1 <=? 0 + 1 + Z.of_nat i) with true by lia. replace (Z.to_nat (0 + 1 + Z.of_nat i - 1)) with i by lia. exact Hi. }
  split; [|split; [|split; [|auto]]].
  - unfold document_of. do 11 eexists. split; [|split; [exact N|reflexivity]]. rewrite T. reflexivity.
  - exists v. exact V.
  - cbn [d_nodes]. destruct (value_unique (d_nodes d)) as (U & _ & _). destruct (value_unique ns) as (U' & _ & _). intros u. split; intros Hu.
    + rewrite (U' _ _ Hu _ V'). exact V.
    + rewrite (U _ _ Hu _ V). exact V'.
Qed.

(** ** Non-vacuity *)
Definition leaf (v : str) : node := Mk_node (NScalar v SAny) (Some STR_TAG) mark0 mark0.
Definition demo_tree : document :=
  Mk_doc [Mk_node (NMapping [(2, 3); (4, 5)] MapBlock) (Some MAP_TAG) mark0 mark0; leaf (lit "a"); Mk_node (NSequence [6] SeqFlow) None mark0 mark0; leaf (lit "b"); leaf (lit "c"); leaf (lit "d")]
    None [] true true mark0 mark0.
Definition demo_walk : walk := WkMapping 1 [(WkScalar 2, WkSequence 3 [WkScalar 6]); (WkScalar 4, WkScalar 5)].
Ltac wk := first
  [ eapply Wk_scalar; [cbn; intuition congruence|reflexivity|reflexivity]
  | eapply Wk_ref; cbn; tauto ].
Example demo_tree_ok : sound_document demo_tree /\ tree_shaped (d_nodes demo_tree) /\ em_last_anchor_id (emitter_on []) = 0.
Proof.
  split; [split; [discriminate|repeat (constructor; cbn; try lia)]|]. split; [|reflexivity].
  exists demo_walk. eexists. split; [|split; reflexivity].
  eapply Wk_mapping; [cbn; tauto|reflexivity|reflexivity|].
  eapply WP_cons; [wk| |].
  { eapply Wk_sequence; [cbn; intuition congruence|reflexivity|reflexivity|]. eapply WL_cons; [wk|apply WL_nil]. }
  eapply WP_cons; [wk|wk|apply WP_nil].
Qed.
Example demo_tree_output : fst (dump demo_tree (emitter_on [])) = Ok tt.
Proof. vm_compute. reflexivity. Qed.
(** A document with sharing: [[a, *a, b], twice the node a]. *)
Definition demo_shared : document :=
  Mk_doc [Mk_node (NSequence [2; 3; 2] SeqFlow) (Some SEQ_TAG) mark0 mark0; leaf (lit "a"); leaf (lit "b")] None [] true true mark0 mark0.
Example demo_shared_ok : exists w seen, walks (d_nodes demo_shared) [] w seen /\ goes_to w = 1 /\ revisited w = [2] /\
  (forall k, In k (revisited w) -> (2 <= occurrences k (root_references (d_nodes demo_shared)))%nat) /\
  document_events demo_shared (anchor_names 0 (d_nodes demo_shared)) w =
  map Some [EvDocumentStart None [] true; EvSequenceStart None (Some SEQ_TAG) true SeqFlow; EvScalar (Some (lit "id001")) (Some STR_TAG) (lit "a") true true SAny;
    EvScalar None (Some STR_TAG) (lit "b") true true SAny; EvAlias (lit "id001"); EvSequenceEnd; EvDocumentEnd true].
Proof.
  exists (WkSequence 1 [WkScalar 2; WkScalar 3; WkRef 2]). eexists. split.
  { eapply Wk_sequence; [cbn; tauto|reflexivity|reflexivity|]. eapply WL_cons; [wk|]. eapply WL_cons; [wk|]. eapply WL_cons; [wk|apply WL_nil]. }
  split; [reflexivity|]. split; [reflexivity|]. split; [|vm_compute; reflexivity]. cbn. intros k [<-|[]]. vm_compute. lia.
Qed.
(** A document with sharing below the root: the hypotheses of [C23_other_sharing_cannot_be_dumped]. *)
Definition demo_below : document :=
  Mk_doc [Mk_node (NSequence [2] SeqFlow) (Some SEQ_TAG) mark0 mark0; Mk_node (NSequence [3; 3] SeqFlow) (Some SEQ_TAG) mark0 mark0; leaf (lit "a")] None [] true true mark0 mark0.
Example demo_below_ok : exists w seen, walks (d_nodes demo_below) [] w seen /\ goes_to w = 1 /\ In 3 (revisited w) /\
  (occurrences 3 (root_references (d_nodes demo_below)) < 2)%nat /\ fst (dump demo_below (emitter_on [])) = Panic PAliasUnwrap.
Proof.
  exists (WkSequence 1 [WkSequence 2 [WkScalar 3; WkRef 3]]). eexists. split.
  { eapply Wk_sequence; [cbn; tauto|reflexivity|reflexivity|]. eapply WL_cons; [|apply WL_nil].
    eapply Wk_sequence; [cbn; intuition congruence|reflexivity|reflexivity|]. eapply WL_cons; [wk|]. eapply WL_cons; [wk|apply WL_nil]. }
  split; [reflexivity|]. split; [cbn; tauto|]. split; [vm_compute; lia|vm_compute; reflexivity].
Qed.
Print Assumptions C23_dump_sends_the_walk.
Print Assumptions C23_every_document_can_be_walked.
Print Assumptions C23_empty_document_closes.
Print Assumptions C23_tree_is_dumped_in_order.
Print Assumptions C23_shared_nodes_are_anchored.
Print Assumptions C23_other_sharing_cannot_be_dumped.
Print Assumptions C24_events_load_the_same_tree.
