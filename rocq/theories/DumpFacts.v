(** DumpFacts.v -- [Document::dump] (document.rs, emitter.rs) sends the events of Spec_Dump.v. *)
From Coq Require Import Lia ZifyBool ZifyNat Bool.
From Verif Require Import Base State Reader Scanner Parser EState Emitter Document Api Spec_Document Spec_Dump DumpAnchors.
Open Scope Z_scope.

Scheme walks_ind2 := Induction for walks Sort Prop
  with walks_list_ind2 := Induction for walks_list Sort Prop
  with walks_pairs_ind2 := Induction for walks_pairs Sort Prop.
Combined Scheme walks_mut from walks_ind2, walks_list_ind2, walks_pairs_ind2.

(** ** Tables indexed from 1 *)
Definition in_range (n : nat) (k : Z) : Prop := 1 <= k <= Z.of_nat n.
Fixpoint tabulate {A} (f : Z -> A) (from : Z) (n : nat) : list A :=
  match n with O => [] | S m => f from :: tabulate f (from + 1) m end.
Lemma tab_length {A} (f : Z -> A) n : forall from, length (tabulate f from n) = n.
Proof. induction n; intros; cbn; auto. Qed.
Lemma tab_nth {A} (f : Z -> A) n : forall from i, (i < n)%nat -> nth_error (tabulate f from n) i = Some (f (from + Z.of_nat i)).
Proof.
  induction n as [|n IH]; intros from i Hi; [lia|]. destruct i as [|i]; cbn [tabulate nth_error]; [f_equal; f_equal; lia|].
  rewrite IH by lia. f_equal. f_equal. lia.
Qed.
Lemma tab_ext {A} (f g : Z -> A) n : forall from, (forall k, from <= k < from + Z.of_nat n -> f k = g k) -> tabulate f from n = tabulate g from n.
Proof. induction n as [|n IH]; intros from H; [reflexivity|]. cbn [tabulate]. rewrite H by lia. f_equal. apply IH. intros k Hk. apply H. lia. Qed.
Lemma tab_upd {A} (f : Z -> A) x n : forall from k, from <= k < from + Z.of_nat n ->
  upd (Z.to_nat (k - from)) (fun _ => x) (tabulate f from n) = tabulate (fun j => if j =? k then x else f j) from n.
Proof.
  induction n as [|n IH]; intros from k Hk; [lia|]. destruct (Z.eq_dec k from) as [->|Hne].
  - replace (Z.to_nat (from - from)) with O by lia. cbn [upd tabulate]. rewrite Z.eqb_refl. f_equal. apply tab_ext. intros j Hj. replace (j =? from) with false by lia. reflexivity.
  - replace (Z.to_nat (k - from)) with (S (Z.to_nat (k - (from + 1)))) by lia. cbn [upd tabulate]. replace (from =? k) with false by lia. f_equal. apply IH. lia.
Qed.
Lemma nodes_tab (l : list node) d : forall from, l = tabulate (fun k => nth (Z.to_nat (k - from)) l d) from (length l).
Proof.
  induction l as [|x l IH]; intros from; [reflexivity|]. cbn [length tabulate]. f_equal; [replace (Z.to_nat (from - from)) with O by lia; reflexivity|].
  rewrite (IH (from + 1)) at 1. apply tab_ext. intros k Hk. replace (Z.to_nat (k - from)) with (S (Z.to_nat (k - (from + 1)))) by lia. reflexivity.
Qed.
Lemma repeat_tab {A} (x : A) n : forall from, repeat x n = tabulate (fun _ => x) from n.
Proof. induction n; intros; cbn; f_equal; auto. Qed.

Lemma pigeon (n : nat) (l : list Z) : NoDup l -> Forall (in_range n) l -> (length l <= n)%nat.
Proof.
  intros Hd Hr. assert (I : incl (map Z.to_nat l) (seq 1 n)).
  { intros x Hx. apply in_map_iff in Hx. destruct Hx as (k & <- & Hk). rewrite Forall_forall in Hr. specialize (Hr k Hk). apply in_seq. unfold in_range in Hr. lia. }
  assert (D : NoDup (map Z.to_nat l)).
  { clear I. induction l as [|k l IH]; [constructor|]. inversion Hd; subst. inversion Hr; subst. cbn [map]. constructor; [|auto].
    intros Hi. apply in_map_iff in Hi. destruct Hi as (j & Ej & Hj). rewrite Forall_forall in *. specialize (H4 j Hj). unfold in_range in *. assert (j = k) by lia. congruence. }
  pose proof (NoDup_incl_length D I) as X. rewrite map_length, seq_length in X. exact X.
Qed.

Section seen.
Variable nodes : list node.
Let N := length nodes.
Definition seen_ok (seen : list Z) : Prop := NoDup seen /\ Forall (in_range N) seen.
Lemma kth_range k n : kth_node nodes k = Some n -> in_range N k.
Proof. unfold kth_node. destruct (1 <=? k) eqn:E; [|discriminate]. intros H. apply nth_error_Some_lt in H || (assert (nth_error nodes (Z.to_nat (k - 1)) <> None) as H2 by congruence; apply nth_error_Some in H2); unfold in_range, N; lia. Qed.
(** ** Walks *)
Lemma walk_seen :
  (forall seen w seen', walks nodes seen w seen' -> seen_ok seen -> seen_ok seen' /\ in_range N (goes_to w) /\ (length seen <= length seen')%nat) /\
  (forall seen l seen', walks_list nodes seen l seen' -> seen_ok seen -> seen_ok seen' /\ (length seen <= length seen')%nat) /\
  (forall seen l seen', walks_pairs nodes seen l seen' -> seen_ok seen -> seen_ok seen' /\ (length seen <= length seen')%nat).
Proof.
  assert (C : forall k n seen, ~ In k seen -> kth_node nodes k = Some n -> seen_ok seen -> seen_ok (k :: seen)).
  { intros k n seen H1 H2 [A B]. split; constructor; auto. eapply kth_range, H2. }
  apply (walks_mut nodes (fun seen w seen' _ => seen_ok seen -> seen_ok seen' /\ in_range N (goes_to w) /\ (length seen <= length seen')%nat)
    (fun seen l seen' _ => seen_ok seen -> seen_ok seen' /\ (length seen <= length seen')%nat)
    (fun seen l seen' _ => seen_ok seen -> seen_ok seen' /\ (length seen <= length seen')%nat)); cbn [goes_to]; auto.
  - intros seen k Hk [A B]. split; [split; auto|]. rewrite Forall_forall in B. auto.
  - intros seen k n v st Hk Hn Hd S. split; [eapply C; eauto|]. split; [eapply kth_range, Hn|cbn; lia].
  - intros seen k n l st seen' Hk Hn Hd Hl IH S. destruct (IH (C _ _ _ Hk Hn S)) as [A B]. split; [exact A|]. split; [eapply kth_range, Hn|cbn in B; lia].
  - intros seen k n l st seen' Hk Hn Hd Hl IH S. destruct (IH (C _ _ _ Hk Hn S)) as [A B]. split; [exact A|]. split; [eapply kth_range, Hn|cbn in B; lia].
  - intros seen w s1 l s2 H1 I1 H2 I2 S. destruct (I1 S) as (A & _ & B). destruct (I2 A) as (C1 & D). split; [exact C1|lia].
  - intros seen x s1 y s2 l s3 H1 I1 H2 I2 H3 I3 S. destruct (I1 S) as (A & _ & B). destruct (I2 A) as (A2 & _ & B2). destruct (I3 A2) as (C1 & D). split; [exact C1|lia].
Qed.
End seen.

Section dumping.
Variable nodes : list node.
Let N := length nodes.
Variables (refs ids : Z -> Z) (L : Z).
Definition memZ (k : Z) (l : list Z) : bool := existsb (Z.eqb k) l.
Lemma memZ_in k l : memZ k l = true <-> In k l.
Proof. unfold memZ. rewrite existsb_exists. split; [intros (x & H & E); apply Z.eqb_eq in E; congruence|intros H; exists k; split; [exact H|apply Z.eqb_refl]]. Qed.
Lemma memZ_out k l : memZ k l = false <-> ~ In k l.
Proof. rewrite <- memZ_in. destruct (memZ k l); intuition congruence. Qed.
(** The table of anchors and the nodes that are left when [seen] have been visited. *)
Definition atab (seen : list Z) : list anchors := tabulate (fun k => Mk_anchors (refs k) (ids k) (memZ k seen)) 1 N.
Definition left (seen : list Z) : list node := tabulate (fun k => if memZ k seen then node_default else nth (Z.to_nat (k - 1)) nodes node_default) 1 N.
Lemma left_nil : left [] = nodes. Proof. symmetry. apply nodes_tab. Qed.

Definition sim (m : M dst unit) (q : M est unit) (seen seen' : list Z) : Prop :=
  forall s, exists D, m (Mk_dst (wa (atab seen) L s) (left seen)) = (fst (q s), D) /\
    (exists A, ds_em D = wa A L (snd (q s))) /\
    (fst (q s) = Ok tt -> D = Mk_dst (wa (atab seen') L (snd (q s))) (left seen')).
Lemma sim_ret seen : sim (ret tt) (ret tt) seen seen.
Proof. intros s. eexists. split; [reflexivity|]. split; [eexists; reflexivity|reflexivity]. Qed.
Lemma sim_bind m1 q1 m2 q2 a b c : sim m1 q1 a b -> sim m2 q2 b c -> sim (m1 ;; m2) (q1 ;; q2) a c.
Proof.
  intros H1 H2 s. destruct (H1 s) as (D & E & X & F). unfold bind. rewrite E. destruct (q1 s) as [[[]|x|x|] s1]; cbn [fst snd] in *.
  - rewrite (F eq_refl). apply H2.
  - exists D. split; [reflexivity|]. split; [exact X|discriminate].
  - exists D. split; [reflexivity|]. split; [exact X|discriminate].
  - exists D. split; [reflexivity|]. split; [exact X|discriminate].
Qed.
Lemma sim_emit x seen : sim (emit_data x) (send (Some x)) seen seen.
Proof.
  intros s. unfold emit_data, on_em, send. cbn [ds_em ds_nodes]. rewrite A_emit. destruct (emit (event_new x) s) as [r s1]. cbn [fst snd].
  eexists. split; [reflexivity|]. split; [eexists; reflexivity|reflexivity].
Qed.
Lemma sim_ext m q q' a b : (forall s, q s = q' s) -> sim m q a b -> sim m q' a b.
Proof. intros H S s. destruct (S s) as (D & X). rewrite H in X. eauto. Qed.
Lemma send_app l1 l2 s : send_all (l1 ++ l2) s = (send_all l1 ;; send_all l2) s.
Proof.
  revert s. induction l1 as [|o l1 IH]; intros s; [reflexivity|]. cbn [app send_all]. unfold bind. destruct (send o s) as [[[]|x|x|] s1]; auto.
  rewrite IH. reflexivity.
Qed.
Lemma send_one o s : send_all [o] s = send o s.
Proof. cbn [send_all]. unfold bind, ret. destruct (send o s) as [[[]|x|x|] s1]; reflexivity. Qed.

(** ** One node *)
Variable name : Z -> option str.
Hypothesis Hname : forall k, (if ids k =? 0 then None else Some (generate_anchor (ids k))) = name k.
Lemma kth_left k n seen : kth_node nodes k = Some n -> ~ In k seen -> nth_error (left seen) (Z.to_nat (k - 1)) = Some n.
Proof.
  intros H Hs. pose proof (kth_range nodes _ _ H) as R. unfold in_range in R. unfold left. rewrite tab_nth by lia. replace (1 + Z.of_nat (Z.to_nat (k - 1))) with k by lia.
  apply memZ_out in Hs. rewrite Hs. f_equal. unfold kth_node in H. replace (1 <=? k) with true in H by lia. apply nth_error_nth, H.
Qed.
Lemma left_some k seen : in_range N k -> exists n, nth_error (left seen) (Z.to_nat (k - 1)) = Some n.
Proof. intros R. unfold in_range in R. unfold left. rewrite tab_nth by lia. eauto. Qed.
Lemma on_em_get k seen s : in_range N k ->
  on_em (get_anchors k) (Mk_dst (wa (atab seen) L s) (left seen)) = (Ok (Mk_anchors (refs k) (ids k) (memZ k seen)), Mk_dst (wa (atab seen) L s) (left seen)).
Proof.
  intros R. unfold in_range in R. unfold on_em, get_anchors. cbn [ds_em ds_nodes]. unfold vec_index. replace (1 <=? k) with true by lia.
  change (em_anchors (wa (atab seen) L s)) with (atab seen). unfold atab. rewrite tab_nth by lia. replace (1 + Z.of_nat (Z.to_nat (k - 1))) with k by lia. reflexivity.
Qed.
Lemma mem_cons j k seen : memZ j (k :: seen) = (j =? k) || memZ j seen. Proof. reflexivity. Qed.
Lemma on_em_put k seen s : in_range N k ->
  on_em (put_anchors k (Mk_anchors (refs k) (ids k) true)) (Mk_dst (wa (atab seen) L s) (left seen)) = (Ok tt, Mk_dst (wa (atab (k :: seen)) L s) (left seen)).
Proof.
  intros R. unfold in_range in R. unfold on_em, put_anchors, modify. cbn [ds_em ds_nodes]. unfold vec_index. replace (1 <=? k) with true by lia.
  change (em_anchors (wa (atab seen) L s)) with (atab seen). f_equal. f_equal.
  assert (E : upd (Z.to_nat (k - 1)) (fun _ => Mk_anchors (refs k) (ids k) true) (atab seen) = atab (k :: seen)).
  { unfold atab. rewrite tab_upd by lia. apply tab_ext. intros j Hj. rewrite mem_cons. destruct (j =? k) eqn:E; [apply Z.eqb_eq in E; subst; reflexivity|reflexivity]. }
  rewrite E. reflexivity.
Qed.
Lemma take k seen : in_range N k -> upd (Z.to_nat (k - 1)) (fun _ => node_default) (left seen) = left (k :: seen).
Proof.
  intros R. unfold in_range in R. unfold left. rewrite tab_upd by lia. apply tab_ext. intros j Hj. rewrite mem_cons. destruct (j =? k); reflexivity.
Qed.

(** Visiting a node for the first time, and again. *)
Lemma first_visit fuel k n seen q seen' : kth_node nodes k = Some n -> ~ In k seen ->
  sim (match n_data n with
       | NScalar value style => emit_data (EvScalar (name k) (n_tag n) value (tag_is n STR_TAG) (tag_is n STR_TAG) style)
       | NSequence items style =>
           emit_data (EvSequenceStart (name k) (n_tag n) (tag_is n SEQ_TAG) style) ;; iterD (dump_node fuel) items ;; emit_data EvSequenceEnd
       | NMapping pairs style =>
           emit_data (EvMappingStart (name k) (n_tag n) (tag_is n MAP_TAG) style) ;;
           iterD (fun p => dump_node fuel (fst p) ;; dump_node fuel (snd p)) pairs ;; emit_data EvMappingEnd
       | NoNode => panics PUnreachable
       end) q (k :: seen) seen' ->
  sim (dump_node (S fuel) k) q seen seen'.
Proof.
  intros Hk Hs H s. pose proof (kth_range nodes _ _ Hk) as R. cbn [dump_node]. replace (0 <? k) with true by (unfold in_range in R; lia). cbn [negb].
  unfold bind at 1, get. cbn [ds_nodes]. rewrite (kth_left k n seen Hk Hs).
  unfold bind at 1. rewrite on_em_get by exact R. cbn [an_anchor an_serialized an_references]. rewrite Hname. apply memZ_out in Hs. rewrite Hs.
  unfold bind at 1. pose proof (on_em_put k seen s R) as P. rewrite P. clear P.
  unfold bind at 1, modify. cbn [ds_em ds_nodes]. rewrite take by exact R.
  change (opt_is (n_tag n) ?t) with (tag_is n t) in *.
  exact (H s).
Qed.
Lemma next_visit fuel k seen : In k seen -> in_range N k -> sim (dump_node (S fuel) k) (send (match name k with Some a => Some (EvAlias a) | None => None end)) seen seen.
Proof.
  intros Hk R s. cbn [dump_node]. replace (0 <? k) with true by (unfold in_range in R; lia). cbn [negb].
  unfold bind at 1, get. cbn [ds_nodes]. destruct (left_some k seen R) as (n & ->).
  unfold bind at 1. rewrite on_em_get by exact R. cbn [an_anchor an_serialized an_references]. rewrite Hname. apply memZ_in in Hk. rewrite Hk.
  destruct (name k) as [a|]; [exact (sim_emit (EvAlias a) seen s)|]. unfold panics, send, panics. eexists. split; [reflexivity|]. split; [eexists; reflexivity|discriminate].
Qed.

Lemma send_flat {A} (f : A -> list (option event_data)) x l s : send_all (flat_map f (x :: l)) s = (send_all (f x) ;; send_all (flat_map f l)) s.
Proof. apply send_app. Qed.
Lemma walk_sim :
  (forall seen w seen', walks nodes seen w seen' -> seen_ok nodes seen -> forall fuel, (N < fuel + length seen)%nat ->
     sim (dump_node fuel (goes_to w)) (send_all (events_of_walk nodes name w)) seen seen') /\
  (forall seen l seen', walks_list nodes seen l seen' -> seen_ok nodes seen -> forall fuel, (N < fuel + length seen)%nat ->
     sim (iterD (dump_node fuel) (map goes_to l)) (send_all (flat_map (events_of_walk nodes name) l)) seen seen') /\
  (forall seen l seen', walks_pairs nodes seen l seen' -> seen_ok nodes seen -> forall fuel, (N < fuel + length seen)%nat ->
     sim (iterD (fun p => dump_node fuel (fst p) ;; dump_node fuel (snd p)) (map (fun '(x, y) => (goes_to x, goes_to y)) l))
       (send_all (flat_map (fun '(x, y) => events_of_walk nodes name x ++ events_of_walk nodes name y) l)) seen seen').
Proof.
  destruct (walk_seen nodes) as (WS1 & WS2 & WS3).
  apply (walks_mut nodes (fun seen w seen' _ => seen_ok nodes seen -> forall fuel, (N < fuel + length seen)%nat ->
     sim (dump_node fuel (goes_to w)) (send_all (events_of_walk nodes name w)) seen seen')
   (fun seen l seen' _ => seen_ok nodes seen -> forall fuel, (N < fuel + length seen)%nat ->
     sim (iterD (dump_node fuel) (map goes_to l)) (send_all (flat_map (events_of_walk nodes name) l)) seen seen')
   (fun seen l seen' _ => seen_ok nodes seen -> forall fuel, (N < fuel + length seen)%nat ->
     sim (iterD (fun p => dump_node fuel (fst p) ;; dump_node fuel (snd p)) (map (fun '(x, y) => (goes_to x, goes_to y)) l))
       (send_all (flat_map (fun '(x, y) => events_of_walk nodes name x ++ events_of_walk nodes name y) l)) seen seen')).
  - intros seen k Hk S fuel Hf. pose proof S as [A B]. pose proof (pigeon (length nodes) seen A B). match goal with H : (length seen <= length nodes)%nat |- _ => change (length nodes) with N in H end. destruct fuel as [|fuel]; [lia|]. cbn [goes_to events_of_walk].
    eapply sim_ext; [intros s; symmetry; apply send_one|]. apply next_visit; [exact Hk|]. rewrite Forall_forall in B. auto.
  - intros seen k n v st Hk Hn Hd S fuel Hf. pose proof S as [A B]. pose proof (pigeon (length nodes) seen A B). match goal with H : (length seen <= length nodes)%nat |- _ => change (length nodes) with N in H end. destruct fuel as [|fuel]; [lia|]. cbn [goes_to events_of_walk]. rewrite Hn, Hd.
    eapply sim_ext; [intros s; symmetry; apply send_one|]. apply (first_visit fuel k n seen _ _ Hn Hk). rewrite Hd. apply sim_emit.
  - intros seen k n l st seen' Hk Hn Hd Hl IH S fuel Hf. pose proof S as [A B]. pose proof (pigeon (length nodes) seen A B). match goal with H : (length seen <= length nodes)%nat |- _ => change (length nodes) with N in H end. destruct fuel as [|fuel]; [lia|]. cbn [goes_to events_of_walk]. rewrite Hn, Hd.
    apply (first_visit fuel k n seen _ _ Hn Hk). rewrite Hd. cbn [send_all]. eapply sim_bind; [apply sim_emit|].
    eapply sim_ext; [intros s; symmetry; apply send_app|]. 
    assert (S2 : seen_ok nodes (k :: seen)) by (split; constructor; auto; eapply kth_range, Hn).
    eapply sim_bind; [apply IH; [exact S2|cbn [length]; lia]|]. eapply sim_ext; [intros s; symmetry; apply send_one|]. apply sim_emit.
  - intros seen k n l st seen' Hk Hn Hd Hl IH S fuel Hf. pose proof S as [A B]. pose proof (pigeon (length nodes) seen A B). match goal with H : (length seen <= length nodes)%nat |- _ => change (length nodes) with N in H end. destruct fuel as [|fuel]; [lia|]. cbn [goes_to events_of_walk]. rewrite Hn, Hd.
    apply (first_visit fuel k n seen _ _ Hn Hk). rewrite Hd. cbn [send_all]. eapply sim_bind; [apply sim_emit|].
    eapply sim_ext; [intros s; symmetry; apply send_app|]. 
    assert (S2 : seen_ok nodes (k :: seen)) by (split; constructor; auto; eapply kth_range, Hn).
    eapply sim_bind; [apply IH; [exact S2|cbn [length]; lia]|]. eapply sim_ext; [intros s; symmetry; apply send_one|]. apply sim_emit.
  - intros seen S fuel Hf. apply sim_ret.
  - intros seen w s1 l s2 H1 I1 H2 I2 S fuel Hf. cbn [map iterD]. eapply sim_ext; [intros s; symmetry; apply send_flat|].
    destruct (WS1 _ _ _ H1 S) as (A & _ & B). eapply sim_bind; [apply I1; assumption|apply I2; [exact A|lia]].
  - intros seen S fuel Hf. apply sim_ret.
  - intros seen x s1 y s2 l s3 H1 I1 H2 I2 H3 I3 S fuel Hf. cbn [map iterD fst snd]. eapply sim_ext; [intros s; symmetry; apply send_flat|].
    destruct (WS1 _ _ _ H1 S) as (A & _ & B). destruct (WS1 _ _ _ H2 A) as (A2 & _ & B2).
    eapply sim_bind; [|apply I3; [exact A2|lia]]. eapply sim_ext; [intros s; symmetry; apply send_app|].
    eapply sim_bind; [apply I1; assumption|apply I2; [exact A|lia]].
Qed.
End dumping.

(** ** Every document can be walked through *)
Lemma walk_exists nodes : Forall (sound_node (Z.of_nat (length nodes))) nodes ->
  forall m seen k, (length nodes - length seen <= m)%nat -> seen_ok nodes seen -> in_range (length nodes) k ->
    exists w seen', walks nodes seen w seen' /\ goes_to w = k.
Proof.
  intros Hs. set (N := length nodes). destruct (walk_seen nodes) as (WS1 & WS2 & WS3). induction m as [|m IH]; intros seen k Hm S R.
  - exists (WkRef k), seen. split; [|reflexivity]. constructor. destruct (in_dec Z.eq_dec k seen) as [H|H]; [exact H|exfalso].
    destruct S as [A B]. pose proof (pigeon N (k :: seen) ltac:(constructor; assumption) ltac:(constructor; assumption)) as P. cbn [length] in P. unfold N in *. lia.
  - destruct (in_dec Z.eq_dec k seen) as [H|H]; [exists (WkRef k), seen; split; [constructor; exact H|reflexivity]|].
    assert (S2 : seen_ok nodes (k :: seen)) by (destruct S; split; constructor; auto).
    assert (Kn : exists n, kth_node nodes k = Some n /\ In n nodes).
    { unfold in_range in R. unfold kth_node. replace (1 <=? k) with true by lia. destruct (nth_error nodes (Z.to_nat (k - 1))) as [n|] eqn:E.
      - exists n. split; [reflexivity|]. eapply nth_error_In, E.
      - apply nth_error_None in E. unfold N in *. lia. }
    destruct Kn as (n & Hn & Hi). rewrite Forall_forall in Hs. specialize (Hs n Hi). unfold sound_node in Hs.
    destruct (n_data n) as [|v st|ks st|kvs st] eqn:Hd; [contradiction|..].
    + exists (WkScalar k), (k :: seen). split; [econstructor; eauto|reflexivity].
    + assert (X : forall ks s0, Forall (fun i => 1 <= i <= Z.of_nat N) ks -> (N - length s0 <= m)%nat -> seen_ok nodes s0 ->
        exists l s1, walks_list nodes s0 l s1 /\ map goes_to l = ks).
      { induction ks0 as [|j ks0 IHk]; intros s0 Hr Hl S0; [exists [], s0; split; [constructor|reflexivity]|].
        inversion Hr; subst. destruct (IH s0 j Hl S0 H2) as (w & s1 & W & Ew). destruct (WS1 _ _ _ W S0) as (A & _ & B).
        destruct (IHk s1 H3 ltac:(lia) A) as (l & s2 & Wl & El). exists (w :: l), s2. split; [econstructor; eauto|cbn; congruence]. }
      destruct (X ks (k :: seen) Hs ltac:(cbn [length]; lia) S2) as (l & s1 & Wl & El). exists (WkSequence k l), s1. split; [|reflexivity].
      eapply Wk_sequence; eauto. rewrite El. exact Hd.
    + assert (X : forall kvs s0, Forall (fun '(k, v) => (1 <= k <= Z.of_nat N) /\ (1 <= v <= Z.of_nat N)) kvs -> (N - length s0 <= m)%nat -> seen_ok nodes s0 ->
        exists l s1, walks_pairs nodes s0 l s1 /\ map (fun '(x, y) => (goes_to x, goes_to y)) l = kvs).
      { induction kvs0 as [|[i j] kvs0 IHk]; intros s0 Hr Hl S0; [exists [], s0; split; [constructor|reflexivity]|].
        inversion Hr as [|? ? H2 H3]; subst; cbn beta iota in H2; destruct H2 as [H2 H2']. destruct (IH s0 i Hl S0 H2) as (w & s1 & W & Ew). destruct (WS1 _ _ _ W S0) as (A & _ & B).
        destruct (IH s1 j ltac:(lia) A H2') as (w' & s2 & W' & Ew'). destruct (WS1 _ _ _ W' A) as (A2 & _ & B2).
        destruct (IHk s2 H3 ltac:(lia) A2) as (l & s3 & Wl & El). exists ((w, w') :: l), s3. split; [econstructor; eauto|cbn; congruence]. }
      destruct (X kvs (k :: seen) Hs ltac:(cbn [length]; lia) S2) as (l & s1 & Wl & El). exists (WkMapping k l), s1. split; [|reflexivity].
      eapply Wk_mapping; eauto. rewrite El. exact Hd.
Qed.

(** ** Counting the references of the root *)
Lemma occ_app k a b : occurrences k (a ++ b) = (occurrences k a + occurrences k b)%nat. Proof. apply count_occ_app. Qed.
Lemma occ_one j P k : occurrences j (P ++ [k]) = (occurrences j P + (if Z.eq_dec k j then 1 else 0))%nat.
Proof. rewrite occ_app. unfold occurrences at 2. cbn [count_occ]. destruct (Z.eq_dec k j); reflexivity. Qed.
Lemma seconds_app b P k : seconds b (P ++ [k]) = seconds b P ++ (if Nat.eqb (occurrences k (b ++ P)) 1 then [k] else []).
Proof.
  revert b. induction P as [|x P IH]; intros b; cbn [app seconds].
  - rewrite app_nil_r. destruct (Nat.eqb _ _); reflexivity.
  - rewrite IH, <- app_assoc. cbn [app]. destruct (Nat.eqb (occurrences x b) 1); reflexivity.
Qed.
Lemma seconds_twice k P : forall b, In k (seconds b P) -> (2 <= occurrences k (b ++ P))%nat.
Proof.
  induction P as [|x P IH]; intros b; cbn [seconds]; [contradiction|]. intros H.
  assert (X : In k (seconds (b ++ [x]) P) -> (2 <= occurrences k (b ++ x :: P))%nat) by (intros Hi; specialize (IH _ Hi); rewrite <- app_assoc in IH; exact IH).
  destruct (Nat.eqb (occurrences x b) 1) eqn:E; [|auto]. destruct H as [->|H]; [|auto]. apply Nat.eqb_eq in E. rewrite occ_app, E. unfold occurrences. cbn [count_occ]. destruct (Z.eq_dec k k); [lia|congruence].
Qed.
Lemma twice_seconds k P : forall b, (occurrences k b <= 1)%nat -> (2 <= occurrences k (b ++ P))%nat -> In k (seconds b P).
Proof.
  induction P as [|x P IH]; intros b H1 H2; cbn [seconds]; [rewrite app_nil_r in H2; lia|].
  change (b ++ x :: P) with (b ++ [x] ++ P) in H2. rewrite app_assoc in H2. destruct (Nat.eqb (occurrences x b) 1) eqn:E.
  - destruct (Z.eq_dec x k) as [->|Hn]; [left; reflexivity|]. right. apply IH; [|exact H2]. rewrite occ_app. unfold occurrences at 2. cbn [count_occ]. destruct (Z.eq_dec x k); [congruence|lia].
  - apply IH; [|exact H2]. rewrite occ_app. unfold occurrences at 2. cbn [count_occ]. apply Nat.eqb_neq in E. destruct (Z.eq_dec x k); [subst; lia|lia].
Qed.
Lemma number_in_app j k l : forall from, number_in from j (l ++ [k]) =
  match number_in from j l with Some i => Some i | None => if k =? j then Some (from + Z.of_nat (length l) + 1) else None end.
Proof.
  induction l as [|x l IH]; intros from; cbn [app number_in length].
  - replace (from + Z.of_nat 0 + 1) with (from + 1) by lia. reflexivity.
  - destruct (x =? j); [reflexivity|]. rewrite IH. destruct (number_in (from + 1) j l); [reflexivity|]. destruct (k =? j); [f_equal; lia|reflexivity].
Qed.
Lemma number_in_some j l : forall from, In j l <-> number_in from j l <> None.
Proof.
  induction l as [|x l IH]; intros from; cbn [In number_in]; [intuition congruence|]. destruct (x =? j) eqn:E; [intuition (congruence || lia)|].
  rewrite <- IH. split; [intros [H|H]; [lia|exact H]|auto].
Qed.
Lemma number_in_pos j l i : forall from, number_in from j l = Some i -> from < i <= from + Z.of_nat (length l).
Proof.
  induction l as [|x l IH]; intros from; cbn [number_in length]; [discriminate|]. destruct (x =? j); [intros H; injection H as <-; lia|].
  intros H. apply IH in H. lia.
Qed.
Lemma number_in_inj j k l i : forall from, number_in from j l = Some i -> number_in from k l = Some i -> j = k.
Proof.
  induction l as [|x l IH]; intros from; cbn [number_in]; [discriminate|]. destruct (x =? j) eqn:E1, (x =? k) eqn:E2; intros H1 H2; try lia.
  - injection H1 as <-. apply number_in_pos in H2. lia.
  - injection H2 as <-. apply number_in_pos in H1. lia.
  - eapply IH; eassumption.
Qed.

Section counting.
Variables (n : nat) (L0 : Z).
Definition id_in (P : list Z) (j : Z) : Z := match number_in L0 j (seconds [] P) with Some i => i | None => 0 end.
Definition ctab (P : list Z) : list anchors := tabulate (fun j => Mk_anchors (Z.of_nat (occurrences j P)) (id_in P j) false) 1 n.
Definition last_id (P : list Z) : Z := L0 + Z.of_nat (length (seconds [] P)).
Lemma sub_step P k s : in_range n k ->
  anchor_node_sub k (wa (ctab P) (last_id P) s) = (Ok tt, wa (ctab (P ++ [k])) (last_id (P ++ [k])) s).
Proof.
  intros R. unfold in_range in R. unfold anchor_node_sub, bind at 1, get_anchors, vec_index. replace (1 <=? k) with true by lia.
  change (em_anchors (wa (ctab P) (last_id P) s)) with (ctab P). unfold ctab at 1. rewrite tab_nth by lia. replace (1 + Z.of_nat (Z.to_nat (k - 1))) with k by lia.
  cbv beta iota zeta. cbn [an_references an_anchor an_serialized].
  assert (U : forall i x, (forall j, id_in (P ++ [k]) j = if j =? k then i else id_in P j) -> x = Mk_anchors (Z.of_nat (occurrences k P) + 1) i false ->
    upd (Z.to_nat (k - 1)) (fun _ => x) (ctab P) = ctab (P ++ [k])).
  { intros i x Hi ->. unfold ctab. rewrite tab_upd by lia. apply tab_ext. intros j _. rewrite Hi. rewrite occ_one.
    destruct (j =? k) eqn:E; [apply Z.eqb_eq in E; subst j; destruct (Z.eq_dec k k); [f_equal; lia|congruence]|].
    destruct (Z.eq_dec k j); [lia|]. f_equal. lia. }
  assert (Q : forall j, id_in (P ++ [k]) j = if (j =? k) && Nat.eqb (occurrences k P) 1 then last_id P + 1 else id_in P j).
  { intros j. unfold id_in. rewrite seconds_app. cbn [app]. destruct (Nat.eqb (occurrences k P) 1) eqn:E; [|rewrite app_nil_r, andb_false_r; reflexivity].
    rewrite number_in_app, andb_true_r. destruct (j =? k) eqn:Ej.
    - apply Z.eqb_eq in Ej. subst j. rewrite Z.eqb_refl. destruct (number_in L0 k (seconds [] P)) eqn:En; [|reflexivity]. exfalso.
      assert (In k (seconds [] P)) by (apply (number_in_some k (seconds [] P) L0); congruence). apply seconds_twice in H. cbn [app] in H. apply Nat.eqb_eq in E. lia.
    - replace (k =? j) with false by lia. destruct (number_in L0 j (seconds [] P)); reflexivity. }
  assert (La : last_id (P ++ [k]) = if Nat.eqb (occurrences k P) 1 then last_id P + 1 else last_id P).
  { unfold last_id. rewrite seconds_app, app_length. cbn [app]. destruct (Nat.eqb (occurrences k P) 1); cbn [length]; lia. }
  destruct (Z.of_nat (occurrences k P) + 1 =? 2) eqn:E2.
  - assert (E3 : Nat.eqb (occurrences k P) 1 = true) by lia. rewrite E3 in La.
    unfold bind, get, modify, put_anchors, modify, vec_index. replace (1 <=? k) with true by lia.
    change (em_last_anchor_id (wa (ctab P) (last_id P) s)) with (last_id P).
    match goal with |- (_, set_em_anchors ?u ?x) = _ => change u with (upd (Z.to_nat (k - 1)) (fun _ => Mk_anchors (Z.of_nat (occurrences k P) + 1) (last_id P + 1) false) (ctab P)) end.
    rewrite (U (last_id P + 1) _); [|intros j; rewrite Q, E3, andb_true_r; reflexivity|reflexivity]. rewrite La. reflexivity.
  - assert (E3 : Nat.eqb (occurrences k P) 1 = false) by lia. rewrite E3 in La.
    unfold put_anchors, modify, vec_index. replace (1 <=? k) with true by lia.
    match goal with |- (_, set_em_anchors ?u ?x) = _ => change u with (upd (Z.to_nat (k - 1)) (fun _ => Mk_anchors (Z.of_nat (occurrences k P) + 1) (id_in P k) false) (ctab P)) end.
    rewrite (U (id_in P k) _); [|intros j; rewrite Q, E3, andb_false_r; destruct (j =? k) eqn:E; [f_equal; lia|reflexivity]|reflexivity]. rewrite La. reflexivity.
Qed.
Lemma sub_list l s : forall P, Forall (in_range n) l -> iterD anchor_node_sub l (wa (ctab P) (last_id P) s) = (Ok tt, wa (ctab (P ++ l)) (last_id (P ++ l)) s).
Proof.
  induction l as [|k l IH]; intros P H; cbn [iterD]; [rewrite app_nil_r; reflexivity|]. inversion H; subst. unfold bind. rewrite sub_step by assumption. rewrite IH by assumption.
  rewrite <- app_assoc. reflexivity.
Qed.
Lemma sub_pairs l s : forall P, Forall (fun '(k, v) => in_range n k /\ in_range n v) l ->
  iterD (fun p => anchor_node_sub (fst p) ;; anchor_node_sub (snd p)) l (wa (ctab P) (last_id P) s) =
  (Ok tt, wa (ctab (P ++ flat_map (fun '(k, v) => [k; v]) l)) (last_id (P ++ flat_map (fun '(k, v) => [k; v]) l)) s).
Proof.
  induction l as [|[k v] l IH]; intros P H; cbn [iterD flat_map]; [rewrite app_nil_r; reflexivity|]. inversion H as [|? ? H1 H3]; subst; cbn beta iota in H1; destruct H1 as [H1 H2]. unfold bind. cbn [fst snd].
  rewrite sub_step by assumption. rewrite sub_step by assumption. rewrite IH by assumption. rewrite <- !app_assoc. reflexivity.
Qed.
End counting.
Lemma ctab_nil n L0 : repeat anchors_default n = ctab n L0 [].
Proof. rewrite (repeat_tab _ n 1). reflexivity. Qed.
Lemma anchors_counted nodes L0 s : Forall (sound_node (Z.of_nat (length nodes))) nodes -> nodes <> [] ->
  anchor_node nodes 1 (wa (repeat anchors_default (length nodes)) L0 s) =
  (Ok tt, wa (ctab (length nodes) L0 (root_references nodes)) (last_id L0 (root_references nodes)) s).
Proof.
  intros Hs Hn. set (n := length nodes). destruct nodes as [|r rest] eqn:En; [congruence|]. inversion Hs as [|? ? Hr _]; subst.
  unfold anchor_node. cbn [vec_index Z.leb Z.compare Pos.compare Pos.compare_cont Z.sub Z.add Z.opp Z.pos_sub Z.to_nat nth_error].
  unfold get_anchors, vec_index, bind at 1. cbn [Z.leb Z.compare Pos.compare Pos.compare_cont Z.sub Z.add Z.opp Z.pos_sub Z.to_nat].
  change (em_anchors (wa ?a _ s)) with a. assert (Pn : (0 < n)%nat) by (unfold n; cbn; lia).
  replace (nth_error (repeat anchors_default n) 0) with (Some anchors_default) by (destruct n; [lia|reflexivity]).
  cbv beta iota zeta. change (an_references anchors_default + 1 =? 1) with true. cbv iota.
  assert (P1 : put_anchors 1 (Mk_anchors (an_references anchors_default + 1) (an_anchor anchors_default) (an_serialized anchors_default)) (wa (repeat anchors_default n) L0 s)
     = (Ok tt, wa (ctab n L0 [1]) (last_id L0 [1]) s)).
  { unfold put_anchors, modify, vec_index. cbn [Z.leb Z.compare Pos.compare Pos.compare_cont]. change (em_anchors (wa ?a _ s)) with a.
    rewrite (repeat_tab _ n 1). rewrite (tab_upd (fun _ => anchors_default) _ n 1 1) by lia.
    assert (E : tabulate (fun j => if j =? 1 then Mk_anchors (an_references anchors_default + 1) (an_anchor anchors_default) (an_serialized anchors_default) else anchors_default) 1 n = ctab n L0 [1]).
    { unfold ctab. apply tab_ext. intros j _. unfold id_in, occurrences. cbn [seconds count_occ number_in]. destruct (Z.eq_dec 1 j) as [<-|Hj]; [reflexivity|]. replace (j =? 1) with false by lia. reflexivity. }
    rewrite E. unfold last_id. cbn. replace (L0 + 0) with L0 by lia. reflexivity. }
  unfold bind at 1. rewrite P1. clear P1.
  unfold root_references. cbn [kth_node Z.leb Z.compare Pos.compare Pos.compare_cont Z.sub Z.add Z.opp Z.pos_sub Z.to_nat nth_error].
  unfold sound_node in Hr. destruct (n_data r) as [|v st|ks st|kvs st]; [contradiction|reflexivity|..].
  - rewrite sub_list; [reflexivity|]. exact Hr.
  - rewrite sub_pairs; [reflexivity|]. exact Hr.
Qed.
