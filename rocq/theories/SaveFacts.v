(** SaveFacts.v -- walking through a document, the events of the walk, and loading them again. *)
From Coq Require Import Lia ZifyBool ZifyNat ZifyN Bool.
From Verif Require Import Base Chars State EState Emitter Document Spec_Events Spec_Document Spec_Dump Spec_EmitNames Spec_Canonical Spec_Save ScanFacts DumpAnchors DumpFacts DumpTree.
Open Scope Z_scope.

Section walk.
Variable nodes : list node.
Variable name : Z -> option str.
Fixpoint wev (w : walk) : list event_data :=
  match w with
  | WkRef k => match name k with Some a => [EvAlias a] | None => [] end
  | WkScalar k =>
      match kth_node nodes k with
      | Some n => match n_data n with
                  | Document.NScalar v st => [EvScalar (name k) (n_tag n) v (tag_is n STR_TAG) (tag_is n STR_TAG) st]
                  | _ => []
                  end
      | None => []
      end
  | WkSequence k l =>
      match kth_node nodes k with
      | Some n => match n_data n with
                  | Document.NSequence _ st => EvSequenceStart (name k) (n_tag n) (tag_is n SEQ_TAG) st :: flat_map wev l ++ [EvSequenceEnd]
                  | _ => []
                  end
      | None => []
      end
  | WkMapping k l =>
      match kth_node nodes k with
      | Some n => match n_data n with
                  | Document.NMapping _ st => EvMappingStart (name k) (n_tag n) (tag_is n MAP_TAG) st :: flat_map (fun '(x, y) => wev x ++ wev y) l ++ [EvMappingEnd]
                  | _ => []
                  end
      | None => []
      end
  end.
Definition revs (l : list (walk * walk)) : list Z := flat_map (fun '(x, y) => revisited x ++ revisited y) l.
Definition named (l : list Z) : Prop := forall k, In k l -> name k <> None.
Lemma named_app a b : named (a ++ b) -> named a /\ named b.
Proof. intros H. split; intros k Hk; apply H, in_or_app; auto. Qed.

Lemma wev_some :
  (forall seen w seen', walks nodes seen w seen' -> named (revisited w) -> events_of_walk nodes name w = map Some (wev w)) /\
  (forall seen l seen', walks_list nodes seen l seen' -> named (flat_map revisited l) -> flat_map (events_of_walk nodes name) l = map Some (flat_map wev l)) /\
  (forall seen l seen', walks_pairs nodes seen l seen' -> named (revs l) ->
     flat_map (fun '(x, y) => events_of_walk nodes name x ++ events_of_walk nodes name y) l = map Some (flat_map (fun '(x, y) => wev x ++ wev y) l)).
Proof.
  apply (walks_mut nodes
   (fun seen w seen' _ => named (revisited w) -> events_of_walk nodes name w = map Some (wev w))
   (fun seen l seen' _ => named (flat_map revisited l) -> flat_map (events_of_walk nodes name) l = map Some (flat_map wev l))
   (fun seen l seen' _ => named (revs l) ->
     flat_map (fun '(x, y) => events_of_walk nodes name x ++ events_of_walk nodes name y) l = map Some (flat_map (fun '(x, y) => wev x ++ wev y) l))).
  - intros seen k Hk R. cbn [events_of_walk wev]. destruct (name k) eqn:E; [reflexivity|]. exfalso. apply (R k); [left; reflexivity|exact E].
  - intros seen k n v st Hk Hn Hd _. cbn [events_of_walk wev]. rewrite Hn, Hd. reflexivity.
  - intros seen k n l st seen' Hk Hn Hd Hl IH R. cbn [events_of_walk wev]. rewrite Hn, Hd, (IH R). cbn [map]. rewrite map_app. reflexivity.
  - intros seen k n l st seen' Hk Hn Hd Hl IH R. cbn [events_of_walk wev]. rewrite Hn, Hd, (IH R). cbn [map]. rewrite map_app. reflexivity.
  - reflexivity.
  - intros seen w s1 l s2 H1 I1 H2 I2 R. cbn [flat_map] in *. apply named_app in R. destruct R as [R1 R2]. rewrite (I1 R1), (I2 R2), map_app. reflexivity.
  - reflexivity.
  - intros seen x s1 y s2 l s3 H1 I1 H2 I2 H3 I3 R. unfold revs in R. cbn [flat_map] in *. apply named_app in R. destruct R as [R1 R3]. apply named_app in R1. destruct R1 as [R1 R2].
    rewrite (I1 R1), (I2 R2), (I3 R3), !map_app. reflexivity.
Qed.
Lemma wev_grammar :
  (forall seen w seen', walks nodes seen w seen' -> named (revisited w) -> node_events (wev w)) /\
  (forall seen l seen', walks_list nodes seen l seen' -> named (flat_map revisited l) -> nodes_events (flat_map wev l)) /\
  (forall seen l seen', walks_pairs nodes seen l seen' -> named (revs l) -> pairs_events (flat_map (fun '(x, y) => wev x ++ wev y) l)).
Proof.
  apply (walks_mut nodes
   (fun seen w seen' _ => named (revisited w) -> node_events (wev w))
   (fun seen l seen' _ => named (flat_map revisited l) -> nodes_events (flat_map wev l))
   (fun seen l seen' _ => named (revs l) -> pairs_events (flat_map (fun '(x, y) => wev x ++ wev y) l))).
  - intros seen k Hk R. cbn [wev]. destruct (name k) eqn:E; [constructor|]. exfalso. apply (R k); [left; reflexivity|exact E].
  - intros seen k n v st Hk Hn Hd _. cbn [wev]. rewrite Hn, Hd. constructor.
  - intros seen k n l st seen' Hk Hn Hd Hl IH R. cbn [wev]. rewrite Hn, Hd. constructor. apply IH, R.
  - intros seen k n l st seen' Hk Hn Hd Hl IH R. cbn [wev]. rewrite Hn, Hd. constructor. apply IH, R.
  - constructor.
  - intros seen w s1 l s2 H1 I1 H2 I2 R. cbn [flat_map] in *. apply named_app in R. destruct R as [R1 R2]. constructor; auto.
  - constructor.
  - intros seen x s1 y s2 l s3 H1 I1 H2 I2 H3 I3 R. unfold revs in R. cbn [flat_map] in *. apply named_app in R. destruct R as [R1 R3]. apply named_app in R1. destruct R1 as [R1 R2].
    rewrite <- app_assoc. constructor; auto.
Qed.

(** What is known of the events. *)
Definition wgood (d : event_data) : Prop :=
  match d with
  | EvAlias a => exists k, name k = Some a
  | EvScalar a t v _ _ st => (exists k, a = name k) /\ exists n, In n nodes /\ n_tag n = t /\ n_data n = Document.NScalar v st
  | EvSequenceStart a t _ st => (exists k, a = name k) /\ exists n ks, In n nodes /\ n_tag n = t /\ n_data n = Document.NSequence ks st
  | EvMappingStart a t _ st => (exists k, a = name k) /\ exists n ks, In n nodes /\ n_tag n = t /\ n_data n = Document.NMapping ks st
  | EvSequenceEnd | EvMappingEnd => True
  | _ => False
  end.
Lemma kth_in k n : kth_node nodes k = Some n -> In n nodes.
Proof. unfold kth_node. destruct (1 <=? k); [|discriminate]. apply nth_error_In. Qed.
Lemma wev_good :
  (forall seen w seen', walks nodes seen w seen' -> Forall wgood (wev w)) /\
  (forall seen l seen', walks_list nodes seen l seen' -> Forall wgood (flat_map wev l)) /\
  (forall seen l seen', walks_pairs nodes seen l seen' -> Forall wgood (flat_map (fun '(x, y) => wev x ++ wev y) l)).
Proof.
  apply (walks_mut nodes
   (fun seen w seen' _ => Forall wgood (wev w))
   (fun seen l seen' _ => Forall wgood (flat_map wev l))
   (fun seen l seen' _ => Forall wgood (flat_map (fun '(x, y) => wev x ++ wev y) l))).
  - intros seen k Hk. cbn [wev]. destruct (name k) eqn:E; [|constructor]. apply Forall_cons; [|constructor]. exists k. exact E.
  - intros seen k n v st Hk Hn Hd. cbn [wev]. rewrite Hn, Hd. apply Forall_cons; [|constructor]. split; [eauto|]. exists n. split; [eapply kth_in, Hn|auto].
  - intros seen k n l st seen' Hk Hn Hd Hl IH. cbn [wev]. rewrite Hn, Hd. apply Forall_cons; [|apply Forall_app; split; [exact IH|apply Forall_cons; [exact Logic.I|constructor]]]. split; [eauto|]. exists n. eexists. split; [eapply kth_in, Hn|eauto].
  - intros seen k n l st seen' Hk Hn Hd Hl IH. cbn [wev]. rewrite Hn, Hd. apply Forall_cons; [|apply Forall_app; split; [exact IH|apply Forall_cons; [exact Logic.I|constructor]]]. split; [eauto|]. exists n. eexists. split; [eapply kth_in, Hn|eauto].
  - constructor.
  - intros seen w s1 l s2 H1 I1 H2 I2. cbn [flat_map]. apply Forall_app. auto.
  - constructor.
  - intros seen x s1 y s2 l s3 H1 I1 H2 I2 H3 I3. cbn [flat_map]. apply Forall_app. split; [apply Forall_app; auto|auto].
Qed.

(** How many they are. *)
Definition weight_at (k : Z) : nat := match kth_node nodes k with Some n => weight n | None => 0 end.
Fixpoint wsum (l : list Z) : nat := match l with [] => 0 | k :: r => weight_at k + wsum r end.
Lemma wev_length :
  (forall seen w seen', walks nodes seen w seen' -> (length (wev w) + wsum seen <= 1 + wsum seen')%nat) /\
  (forall seen l seen', walks_list nodes seen l seen' -> (length (flat_map wev l) + wsum seen <= length l + wsum seen')%nat) /\
  (forall seen l seen', walks_pairs nodes seen l seen' -> (length (flat_map (fun '(x, y) => wev x ++ wev y) l) + wsum seen <= 2 * length l + wsum seen')%nat).
Proof.
  apply (walks_mut nodes
   (fun seen w seen' _ => (length (wev w) + wsum seen <= 1 + wsum seen')%nat)
   (fun seen l seen' _ => (length (flat_map wev l) + wsum seen <= length l + wsum seen')%nat)
   (fun seen l seen' _ => (length (flat_map (fun '(x, y) => wev x ++ wev y) l) + wsum seen <= 2 * length l + wsum seen')%nat)).
  - intros seen k Hk. cbn [wev]. destruct (name k); cbn; lia.
  - intros seen k n v st Hk Hn Hd. cbn [wev wsum]. rewrite Hn, Hd. cbn [length]. lia.
  - intros seen k n l st seen' Hk Hn Hd Hl IH. cbn [wev]. rewrite Hn, Hd. cbn [length]. rewrite app_length. cbn [length wsum] in *. unfold weight_at in IH. rewrite Hn in IH. unfold weight in IH. rewrite Hd, map_length in IH. lia.
  - intros seen k n l st seen' Hk Hn Hd Hl IH. cbn [wev]. rewrite Hn, Hd. cbn [length]. rewrite app_length. cbn [length wsum] in *. unfold weight_at in IH. rewrite Hn in IH. unfold weight in IH. rewrite Hd, map_length in IH. lia.
  - intros seen. cbn. lia.
  - intros seen w s1 l s2 H1 I1 H2 I2. cbn [flat_map length]. rewrite app_length. lia.
  - intros seen. cbn. lia.
  - intros seen x s1 y s2 l s3 H1 I1 H2 I2 H3 I3. cbn [flat_map length]. rewrite !app_length. lia.
Qed.
Lemma sum_sub (f : Z -> nat) (g : nat -> nat) n : forall l, NoDup l -> Forall (in_range n) l -> (forall i, (i < n)%nat -> f (Z.of_nat i + 1) = g i) ->
  (fold_right (fun k v => f k + v) 0 l <= fold_right (fun i v => g i + v) 0 (seq 0 n))%nat.
Proof.
  induction n as [|n IH]; intros l Hn Hr Hf.
  - destruct l as [|k l]; [reflexivity|]. apply Forall_inv in Hr. unfold in_range in Hr. lia.
  - rewrite seq_S, fold_right_app. cbn [fold_right Nat.add].
    assert (Hg : forall m z, (fold_right (fun i v => g i + v) z (seq 0 m) = fold_right (fun i v => g i + v) 0 (seq 0 m) + z)%nat).
    { intros m. generalize 0%nat at 1 3. induction m as [|m IHm]; intros a z; cbn; [lia|]. rewrite IHm. lia. }
    rewrite Hg. destruct (in_dec Z.eq_dec (Z.of_nat n + 1) l) as [Hin|Hout].
    + apply in_split in Hin. destruct Hin as (a & b & ->). apply NoDup_remove in Hn. destruct Hn as [Hn Ho]. apply Forall_app in Hr. destruct Hr as [Hr1 Hr2]. pose proof (Forall_inv_tail Hr2) as Hr3.
      specialize (IH (a ++ b) Hn). rewrite fold_right_app in IH |- *. cbn [fold_right].
      assert (Hs : forall x z, (fold_right (fun k v => f k + v) z x = fold_right (fun k v => f k + v) 0 x + z)%nat) by (induction x; intros; cbn; [lia|rewrite IHx; lia]).
      rewrite Hs in IH |- *. rewrite (Hf n) by lia. assert (IH' := IH). clear IH. specialize (IH' ltac:(apply Forall_forall; intros k Hk; assert (In k a \/ In k b) by (apply in_app_or, Hk); assert (k <> Z.of_nat n + 1) by (intros ->; auto); rewrite Forall_forall in Hr1, Hr3; unfold in_range in *; destruct H; [specialize (Hr1 k H)|specialize (Hr3 k H)]; lia) ltac:(intros i Hi; apply Hf; lia)). lia.
    + specialize (IH l Hn). assert (IH' := IH). clear IH. specialize (IH' ltac:(apply Forall_forall; intros k Hk; assert (k <> Z.of_nat n + 1) by (intros ->; auto); rewrite Forall_forall in Hr; specialize (Hr k Hk); unfold in_range in *; lia) ltac:(intros i Hi; apply Hf; lia)). lia.
Qed.
Lemma wsum_all seen : NoDup seen -> Forall (in_range (length nodes)) seen -> (wsum seen <= fold_right (fun n v => weight n + v) 0 nodes)%nat.
Proof.
  intros Hn Hr. assert (E : wsum seen = fold_right (fun k v => (weight_at k + v)%nat) 0%nat seen) by (clear; induction seen; cbn; congruence). rewrite E.
  etransitivity; [apply (sum_sub weight_at (fun i => match nth_error nodes i with Some n => weight n | None => 0%nat end) (length nodes) seen Hn Hr)|].
  - intros i Hi. unfold weight_at, kth_node. replace (1 <=? Z.of_nat i + 1) with true by lia. replace (Z.to_nat (Z.of_nat i + 1 - 1)) with i by lia. reflexivity.
  - clear. assert (H : forall pre l, nodes = pre ++ l -> (fold_right (fun i v => match nth_error nodes i with Some n => weight n | None => 0 end + v) 0 (seq (length pre) (length l)) <= fold_right (fun n v => weight n + v) 0 l)%nat).
    { intros pre l. revert pre. induction l as [|x l IH]; intros pre E; [reflexivity|]. cbn [length seq fold_right].
      assert (Hx : nth_error nodes (length pre) = Some x) by (rewrite E, nth_error_app2, Nat.sub_diag by lia; reflexivity). rewrite Hx.
      specialize (IH (pre ++ [x])). rewrite app_length in IH. cbn [length] in IH. rewrite Nat.add_1_r in IH. specialize (IH ltac:(rewrite <- app_assoc; exact E)). lia. }
    apply (H [] nodes eq_refl).
Qed.
End walk.
