(** SaveLoad.v -- loading the events of a walk gives the same graph again. *)
From Coq Require Import Lia ZifyBool ZifyNat ZifyN Bool.
From Verif Require Import Base Chars State EState Emitter Document Spec_Events Spec_Document Spec_Dump Spec_EmitNames Spec_Canonical Spec_Save ScanFacts DumpAnchors DumpFacts DumpTree SaveFacts.
Open Scope Z_scope.

Notation len l := (Z.of_nat (length l)).
(** The number a node gets: that of its first visit ([seen] has the last visit first). *)
Fixpoint pos (seen : list Z) (k : Z) : Z :=
  match seen with [] => 0 | x :: r => if x =? k then len r + 1 else pos r k end.
Lemma pos_app a : forall seen k, NoDup (a ++ seen) -> In k seen -> pos (a ++ seen) k = pos seen k.
Proof.
  induction a as [|x a IH]; intros seen k Hn Hk; [reflexivity|]. cbn [app pos]. cbn [app] in Hn. apply NoDup_cons_iff in Hn. destruct Hn as [Ho Hn].
  replace (x =? k) with false; [apply IH; assumption|]. symmetry. apply Z.eqb_neq. intros ->. apply Ho, in_or_app. auto.
Qed.
Lemma pos_range seen k : In k seen -> 1 <= pos seen k <= len seen.
Proof. induction seen as [|x r IH]; [intros []|]. cbn [pos length]. destruct (x =? k) eqn:E; [lia|]. intros [->|H]; [lia|]. specialize (IH H). lia. Qed.
Lemma pos_inj seen : forall j k, In j seen -> In k seen -> pos seen j = pos seen k -> j = k.
Proof.
  induction seen as [|x r IH]; intros j k Hj Hk E; [destruct Hj|]. cbn [pos] in E. destruct (x =? j) eqn:Ej, (x =? k) eqn:Ek; try lia.
  - destruct Hk as [->|Hk]; [lia|]. pose proof (pos_range r k Hk). lia.
  - destruct Hj as [->|Hj]; [lia|]. pose proof (pos_range r j Hj). lia.
  - destruct Hj as [->|Hj]; [lia|]. destruct Hk as [->|Hk]; [lia|]. apply IH; assumption.
Qed.
Lemma pos_onto seen : NoDup seen -> forall i, 1 <= i <= len seen -> exists k, In k seen /\ pos seen k = i.
Proof.
  intros Hn. induction seen as [|x r IH]; intros i Hi; [cbn in Hi; lia|]. cbn [length] in Hi. destruct (Z.eq_dec i (len r + 1)) as [->|Hne].
  - exists x. cbn [pos]. rewrite Z.eqb_refl. split; [left; reflexivity|reflexivity].
  - apply NoDup_cons_iff in Hn. destruct Hn as [Ho Hn]. destruct (IH Hn i ltac:(lia)) as (k & Hk & E). exists k. split; [right; exact Hk|]. cbn [pos]. replace (x =? k) with false; [exact E|]. symmetry. apply Z.eqb_neq. intros ->. auto.
Qed.

Section load.
Variable nodes : list node.
Variable name : Z -> option str.
Hypothesis name_inj : forall j k a, name j = Some a -> name k = Some a -> j = k.

Definition grows (seen seen' : list Z) : Prop := exists x, seen' = x ++ seen.
Lemma grows_trans a b c : grows a b -> grows b c -> grows a c.
Proof. intros (x & ->) (y & ->). exists (y ++ x). apply app_assoc. Qed.
Lemma grows_in a b k : grows a b -> In k a -> In k b. Proof. intros (x & ->) H. apply in_or_app. auto. Qed.
Lemma grows_nodup a b : grows a b -> NoDup b -> NoDup a.
Proof. intros (x & ->). induction x as [|y x IH]; [auto|]. intros H. cbn in H. apply NoDup_cons_iff in H. apply IH, H. Qed.
Lemma grows_pos a b k : grows a b -> NoDup b -> In k a -> pos b k = pos a k.
Proof. intros (x & ->). apply pos_app. Qed.
Lemma walk_grows :
  (forall seen w seen', walks nodes seen w seen' -> grows seen seen' /\ In (goes_to w) seen' /\ (NoDup seen -> NoDup seen')) /\
  (forall seen l seen', walks_list nodes seen l seen' -> grows seen seen' /\ Forall (fun k => In k seen') (map goes_to l) /\ (NoDup seen -> NoDup seen')) /\
  (forall seen l seen', walks_pairs nodes seen l seen' -> grows seen seen' /\ Forall (fun '(x, y) => In x seen' /\ In y seen') (map (fun '(x, y) => (goes_to x, goes_to y)) l) /\ (NoDup seen -> NoDup seen')).
Proof.
  apply (walks_mut nodes
   (fun seen w seen' _ => grows seen seen' /\ In (goes_to w) seen' /\ (NoDup seen -> NoDup seen'))
   (fun seen l seen' _ => grows seen seen' /\ Forall (fun k => In k seen') (map goes_to l) /\ (NoDup seen -> NoDup seen'))
   (fun seen l seen' _ => grows seen seen' /\ Forall (fun '(x, y) => In x seen' /\ In y seen') (map (fun '(x, y) => (goes_to x, goes_to y)) l) /\ (NoDup seen -> NoDup seen'))).
  - intros seen k Hk. split; [exists []; reflexivity|]. auto.
  - intros seen k n v st Hk Hn Hd. split; [exists [k]; reflexivity|]. split; [left; reflexivity|]. intros. constructor; assumption.
  - intros seen k n l st seen' Hk Hn Hd Hl (A & B & C). split; [eapply grows_trans; [exists [k]; reflexivity|exact A]|]. split; [apply (grows_in _ _ _ A); left; reflexivity|]. intros. apply C. constructor; assumption.
  - intros seen k n l st seen' Hk Hn Hd Hl (A & B & C). split; [eapply grows_trans; [exists [k]; reflexivity|exact A]|]. split; [apply (grows_in _ _ _ A); left; reflexivity|]. intros. apply C. constructor; assumption.
  - intros seen. split; [exists []; reflexivity|]. split; [constructor|auto].
  - intros seen w s1 l s2 H1 (A & B & C) H2 (A2 & B2 & C2). split; [eapply grows_trans; eassumption|]. split; [|auto]. cbn [map]. constructor; [apply (grows_in _ _ _ A2 B)|exact B2].
  - intros seen. split; [exists []; reflexivity|]. split; [constructor|auto].
  - intros seen x s1 y s2 l s3 H1 (A & B & C) H2 (A2 & B2 & C2) H3 (A3 & B3 & C3). split; [eapply grows_trans; [eassumption|eapply grows_trans; eassumption]|]. split; [|auto]. cbn [map]. constructor; [|exact B3].
    split; [apply (grows_in _ _ _ A3), (grows_in _ _ _ A2), B|apply (grows_in _ _ _ A3), B2].
Qed.

Definition env_ok (seen : list Z) (env : anchors_env) : Prop :=
  (forall k a, In k seen -> name k = Some a -> exists m, lookup a env = Some (pos seen k, m)) /\
  (forall a x, lookup a env = Some x -> exists k, In k seen /\ name k = Some a).
Lemma lookup_app a env env' : lookup a (env ++ env') = match lookup a env with Some x => Some x | None => lookup a env' end.
Proof. unfold lookup. induction env as [|[b x] env IH]; [reflexivity|]. cbn [app find fst]. destruct (str_eqb b a); [reflexivity|exact IH]. Qed.
Lemma declares seen env k s : env_ok seen env -> ~ In k seen -> exists env1, declare (name k) (len seen + 1) s env = inl env1 /\ env_ok (k :: seen) env1.
Proof.
  intros [E1 E2] Hk. unfold declare. destruct (name k) as [a|] eqn:Ea.
  - destruct (lookup a env) as [[x m]|] eqn:El.
    + exfalso. destruct (E2 _ _ El) as (j & Hj & Hjn). apply Hk. rewrite (name_inj k j a Ea Hjn). exact Hj.
    + eexists. split; [reflexivity|]. assert (Hself : lookup a [(a, (len seen + 1, s))] = Some (len seen + 1, s)). { unfold lookup. cbn [find fst]. replace (str_eqb a a) with true by (symmetry; apply str_eqb_eq; reflexivity). reflexivity. }
      split.
      * intros j b Hj Hb. rewrite lookup_app. cbn [pos]. destruct (k =? j) eqn:Ekj.
        -- assert (k = j) by lia. subst j. rewrite Ea in Hb. injection Hb as <-. rewrite El, Hself. eauto.
        -- destruct Hj as [->|Hj]; [lia|]. destruct (E1 _ _ Hj Hb) as (m & ->). eauto.
      * intros b x Hl. rewrite lookup_app in Hl. destruct (lookup b env) as [y|] eqn:Eb.
        -- destruct (E2 _ _ Eb) as (j & Hj & Hjn). exists j. split; [right; exact Hj|exact Hjn].
        -- exists k. split; [left; reflexivity|]. unfold lookup in Hl. cbn [find fst] in Hl. destruct (str_eqb a b) eqn:Eab; [|discriminate]. apply str_eqb_eq in Eab. congruence.
  - eexists. split; [reflexivity|]. split.
    + intros j b Hj Hb. destruct Hj as [->|Hj]; [congruence|]. cbn [pos]. replace (k =? j) with false; [apply E1; assumption|]. symmetry. apply Z.eqb_neq. intros ->. auto.
    + intros b x Hl. destruct (E2 _ _ Hl) as (j & Hj & Hjn). exists j. split; [right; exact Hj|exact Hjn].
Qed.
Lemma told_same t b d : node_tag (told_tag t b) d = node_tag t d.
Proof. destruct t as [t|]; [reflexivity|]. destruct b; reflexivity. Qed.

Definition tells (seen seen' : list Z) (ns : list node) : Prop :=
  len seen' = len seen + len ns /\
  forall F table, NoDup F -> grows seen' F -> at_ table (len seen) ns -> forall k, In k seen' -> ~ In k seen ->
    exists n n', kth_node nodes k = Some n /\ kth_node table (pos F k) = Some n' /\ same_node (pos F) n n'.
Definition wloads (seen : list Z) (w : walk) (seen' : list Z) : Prop :=
  NoDup seen -> named name (revisited w) -> forall es, map e_data es = map reread_one (wev nodes name w) ->
  exists t, events_of_tree t = es /\ forall env, env_ok seen env -> exists ns env',
    number env (len seen) t = inl (ns, env', pos seen' (goes_to w)) /\ env_ok seen' env' /\ tells seen seen' ns.
Definition wloads_list (seen : list Z) (l : list walk) (seen' : list Z) : Prop :=
  NoDup seen -> named name (flat_map revisited l) -> forall es, map e_data es = map reread_one (flat_map (wev nodes name) l) ->
  exists ts, flat_map events_of_tree ts = es /\ forall env, env_ok seen env -> exists ns env',
    number_list number env (len seen) ts = inl (ns, env', map (pos seen') (map goes_to l)) /\ env_ok seen' env' /\ tells seen seen' ns.
Definition wloads_pairs (seen : list Z) (l : list (walk * walk)) (seen' : list Z) : Prop :=
  NoDup seen -> named name (revs l) -> forall es, map e_data es = map reread_one (flat_map (fun '(x, y) => wev nodes name x ++ wev nodes name y) l) ->
  exists ts, flat_map (fun '(k, v) => events_of_tree k ++ events_of_tree v) ts = es /\ forall env, env_ok seen env -> exists ns env',
    number_pairs number env (len seen) ts = inl (ns, env', map (fun '(x, y) => (pos seen' x, pos seen' y)) (map (fun '(x, y) => (goes_to x, goes_to y)) l)) /\ env_ok seen' env' /\ tells seen seen' ns.
Lemma tells_nil seen : tells seen seen [].
Proof. split; [cbn; lia|]. intros F table _ _ _ k H1 H2. contradiction. Qed.
Lemma tells_app a b c ns ns' : tells a b ns -> tells b c ns' -> grows b c -> tells a c (ns ++ ns').
Proof.
  intros [L1 T1] [L2 T2] G. split; [rewrite app_length; lia|]. intros F table Hn HF Hat k Hc Ha. apply at_app in Hat. destruct Hat as [H1 H2].
  destruct (in_dec Z.eq_dec k b) as [Hb|Hb].
  - apply (T1 F table Hn (grows_trans _ _ _ G HF) H1 k Hb Ha).
  - apply (T2 F table Hn HF); [rewrite L1; exact H2|exact Hc|exact Hb].
Qed.
(** A collection and what it contains. *)
Lemma tells_cons seen k n nd seen' ns : tells (k :: seen) seen' ns -> grows (k :: seen) seen' -> NoDup (k :: seen) -> kth_node nodes k = Some n ->
  (forall F, NoDup F -> grows seen' F -> same_node (pos F) n nd) -> tells seen seen' (nd :: ns).
Proof.
  intros [L T] G Hn Hk Hs. split; [cbn [length] in *; lia|]. intros F table HnF HF Hat j Hj1 Hj2. apply at_head in Hat. destruct Hat as [H1 H2].
  destruct (Z.eq_dec j k) as [->|Hne].
  - exists n, nd. split; [exact Hk|]. split; [|apply Hs; assumption]. rewrite (grows_pos _ _ k (grows_trans _ _ _ G HF) HnF (or_introl eq_refl)). cbn [pos]. rewrite Z.eqb_refl. exact H1.
  - apply (T F table HnF HF); [|exact Hj1|intros [Q|Q]; congruence]. replace (len (k :: seen)) with (len seen + 1) by (cbn [length]; lia). exact H2.
Qed.
Lemma map_pos l s F : Forall (fun k => In k s) l -> grows s F -> NoDup F -> map (pos s) l = map (pos F) l.
Proof. intros H G Hn. induction H as [|k l Hk _ IH]; [reflexivity|]. cbn [map]. rewrite (grows_pos _ _ _ G Hn Hk), IH. reflexivity. Qed.
Lemma map_pos2 l s F : Forall (fun '(x, y) => In x s /\ In y s) l -> grows s F -> NoDup F -> map (fun '(x, y) => (pos s x, pos s y)) l = map (fun '(x, y) => (pos F x, pos F y)) l.
Proof. intros H G Hn. induction H as [|[x y] l [Hx Hy] _ IH]; [reflexivity|]. cbn [map]. rewrite (grows_pos _ _ _ G Hn Hx), (grows_pos _ _ _ G Hn Hy), IH. reflexivity. Qed.

Lemma walk_loads :
  (forall seen w seen', walks nodes seen w seen' -> wloads seen w seen') /\
  (forall seen l seen', walks_list nodes seen l seen' -> wloads_list seen l seen') /\
  (forall seen l seen', walks_pairs nodes seen l seen' -> wloads_pairs seen l seen').
Proof.
  destruct walk_grows as (G1 & G2 & G3).
  apply (walks_mut nodes (fun seen w seen' _ => wloads seen w seen') (fun seen l seen' _ => wloads_list seen l seen') (fun seen l seen' _ => wloads_pairs seen l seen')).
  - intros seen k Hk Hn R es E. cbn [wev goes_to] in *. destruct (name k) as [a|] eqn:Ea; [|exfalso; apply (R k); [left; reflexivity|exact Ea]].
    apply one_map in E. destruct E as ([d s e] & -> & E). cbn in E. subst d. exists (TrAlias a s e). split; [reflexivity|]. intros env Henv. exists [], env. cbn [number].
    destruct (proj1 Henv _ _ Hk Ea) as (m & ->). split; [reflexivity|]. split; [exact Henv|apply tells_nil].
  - intros seen k n v st Hk Hn Hd Hnd R es E. cbn [wev goes_to] in *. rewrite Hn, Hd in E. apply one_map in E. destruct E as ([d s e] & -> & E). cbn [reread_one e_data] in E. subst d.
    eexists (TrScalar _ _ _ _ _ _ s e). split; [reflexivity|]. intros env Henv. cbn [number]. destruct (declares _ _ k s Henv Hk) as (env1 & Ed & Henv1). rewrite Ed. eexists. exists env1.
    cbn [pos]. rewrite Z.eqb_refl. split; [reflexivity|]. split; [exact Henv1|]. apply (tells_cons _ k n); [apply tells_nil|exists []; reflexivity|constructor; assumption|exact Hn|].
    intros F _ _. unfold same_node. rewrite Hd. cbn [n_data n_tag]. rewrite told_same. auto.
  - intros seen k n l st seen' Hk Hn Hd Hl IH Hnd R es E. cbn [wev goes_to] in *. rewrite Hn, Hd in E. cbn [map] in E. destruct es as [|[d s e] es]; [discriminate|]. cbn [map e_data reread_one] in E. injection E as -> E.
    rewrite map_app in E. apply map_eq_app in E. destruct E as (es1 & es2 & -> & E1 & E2). apply one_map in E2. destruct E2 as ([d s2 e2] & -> & E2). cbn in E2. subst d.
    assert (Hnd' : NoDup (k :: seen)) by (constructor; assumption). destruct (IH Hnd' R es1 E1) as (ts & Ht & L). destruct (G2 _ _ _ Hl) as (Gr & Gi & Gn).
    eexists (TrSequence _ _ _ _ s e ts s2 e2). split; [cbn [events_of_tree]; rewrite Ht; reflexivity|]. intros env Henv. cbn [number]. destruct (declares _ _ k s Henv Hk) as (env1 & Ed & Henv1). rewrite Ed.
    destruct (L env1 Henv1) as (ns & env' & En & Henv' & T). replace (len (k :: seen)) with (len seen + 1) in En by (cbn [length]; lia). rewrite En. eexists. exists env'.
    split; [rewrite (grows_pos _ _ k Gr (Gn Hnd') (or_introl eq_refl)); cbn [pos]; rewrite Z.eqb_refl; reflexivity|]. split; [exact Henv'|].
    apply (tells_cons _ k n _ _ _ T Gr Hnd' Hn). intros F HnF HF. unfold same_node. rewrite Hd. cbn [n_data n_tag]. rewrite (map_pos _ _ F Gi HF HnF). auto.
  - intros seen k n l st seen' Hk Hn Hd Hl IH Hnd R es E. cbn [wev goes_to] in *. rewrite Hn, Hd in E. cbn [map] in E. destruct es as [|[d s e] es]; [discriminate|]. cbn [map e_data reread_one] in E. injection E as -> E.
    rewrite map_app in E. apply map_eq_app in E. destruct E as (es1 & es2 & -> & E1 & E2). apply one_map in E2. destruct E2 as ([d s2 e2] & -> & E2). cbn in E2. subst d.
    assert (Hnd' : NoDup (k :: seen)) by (constructor; assumption). destruct (IH Hnd' R es1 E1) as (ts & Ht & L). destruct (G3 _ _ _ Hl) as (Gr & Gi & Gn).
    eexists (TrMapping _ _ _ _ s e ts s2 e2). split; [cbn [events_of_tree]; rewrite Ht; reflexivity|]. intros env Henv. cbn [number]. destruct (declares _ _ k s Henv Hk) as (env1 & Ed & Henv1). rewrite Ed.
    destruct (L env1 Henv1) as (ns & env' & En & Henv' & T). replace (len (k :: seen)) with (len seen + 1) in En by (cbn [length]; lia). rewrite En. eexists. exists env'.
    split; [rewrite (grows_pos _ _ k Gr (Gn Hnd') (or_introl eq_refl)); cbn [pos]; rewrite Z.eqb_refl; reflexivity|]. split; [exact Henv'|].
    apply (tells_cons _ k n _ _ _ T Gr Hnd' Hn). intros F HnF HF. unfold same_node. rewrite Hd. cbn [n_data n_tag]. rewrite (map_pos2 _ _ F Gi HF HnF). auto.
  - intros seen Hnd R es E. apply map_eq_nil in E. subst es. exists []. split; [reflexivity|]. intros env Henv. exists [], env. split; [reflexivity|]. split; [exact Henv|apply tells_nil].
  - intros seen w s1 l s2 H1 I1 H2 I2 Hnd R es E. cbn [flat_map] in *. apply named_app in R. destruct R as [R1 R2]. rewrite map_app in E. apply map_eq_app in E. destruct E as (a & b & -> & E1 & E2).
    destruct (G1 _ _ _ H1) as (Gr & Gi & Gn). destruct (G2 _ _ _ H2) as (Gr2 & Gi2 & Gn2).
    destruct (I1 Hnd R1 a E1) as (t & Ht & L1). destruct (I2 (Gn Hnd) R2 b E2) as (ts & Hts & L2). exists (t :: ts). split; [cbn [flat_map]; rewrite Ht, Hts; reflexivity|].
    intros env Henv. cbn [number_list]. destruct (L1 env Henv) as (ns & env1 & N1 & Henv1 & T1). rewrite N1. destruct (L2 env1 Henv1) as (ns' & env2 & N2 & Henv2 & T2).
    replace (len seen + len ns) with (len s1) by (destruct T1; lia). rewrite N2. exists (ns ++ ns'), env2. cbn [map]. rewrite (grows_pos _ _ _ Gr2 (Gn2 (Gn Hnd)) Gi). split; [reflexivity|]. split; [exact Henv2|].
    eapply tells_app; eassumption.
  - intros seen Hnd R es E. apply map_eq_nil in E. subst es. exists []. split; [reflexivity|]. intros env Henv. exists [], env. split; [reflexivity|]. split; [exact Henv|apply tells_nil].
  - intros seen x s1 y s2 l s3 H1 I1 H2 I2 H3 I3 Hnd R es E. unfold revs in R. cbn [flat_map] in *. apply named_app in R. destruct R as [R12 R3]. apply named_app in R12. destruct R12 as [R1 R2].
    rewrite !map_app, <- app_assoc in E. apply map_eq_app in E. destruct E as (a & bc & -> & E1 & E). apply map_eq_app in E. destruct E as (b & c & -> & E2 & E3).
    destruct (G1 _ _ _ H1) as (Gr & Gi & Gn). destruct (G1 _ _ _ H2) as (Gr2 & Gi2 & Gn2). destruct (G3 _ _ _ H3) as (Gr3 & Gi3 & Gn3).
    destruct (I1 Hnd R1 a E1) as (t & Ht & L1). destruct (I2 (Gn Hnd) R2 b E2) as (u & Hu & L2). destruct (I3 (Gn2 (Gn Hnd)) R3 c E3) as (ts & Hts & L3).
    exists ((t, u) :: ts). split; [cbn [flat_map]; rewrite Ht, Hu, Hts, <- app_assoc; reflexivity|].
    intros env Henv. cbn [number_pairs]. destruct (L1 env Henv) as (ns & env1 & N1 & Henv1 & T1). rewrite N1. destruct (L2 env1 Henv1) as (ns2 & env2 & N2 & Henv2 & T2).
    replace (len seen + len ns) with (len s1) by (destruct T1; lia). rewrite N2. destruct (L3 env2 Henv2) as (ns3 & env3 & N3 & Henv3 & T3). replace (len s1 + len ns2) with (len s2) by (destruct T2; lia). rewrite N3.
    exists (ns ++ ns2 ++ ns3), env3. cbn [map]. rewrite (grows_pos _ _ _ (grows_trans _ _ _ Gr2 Gr3) (Gn3 (Gn2 (Gn Hnd))) Gi), (grows_pos _ _ _ Gr3 (Gn3 (Gn2 (Gn Hnd))) Gi2). split; [reflexivity|]. split; [exact Henv3|].
    eapply tells_app; [exact T1| |eapply grows_trans; eassumption]. eapply tells_app; eassumption.
Qed.

(** ** The nodes that are visited are those that can be reached. *)
Lemma walk_reaches :
  (forall seen w seen', walks nodes seen w seen' -> (forall k, In k seen -> reachable nodes k) -> reachable nodes (goes_to w) -> forall k, In k seen' -> reachable nodes k) /\
  (forall seen l seen', walks_list nodes seen l seen' -> (forall k, In k seen -> reachable nodes k) -> Forall (reachable nodes) (map goes_to l) -> forall k, In k seen' -> reachable nodes k) /\
  (forall seen l seen', walks_pairs nodes seen l seen' -> (forall k, In k seen -> reachable nodes k) -> Forall (fun '(x, y) => reachable nodes x /\ reachable nodes y) (map (fun '(x, y) => (goes_to x, goes_to y)) l) -> forall k, In k seen' -> reachable nodes k).
Proof.
  apply (walks_mut nodes
   (fun seen w seen' _ => (forall k, In k seen -> reachable nodes k) -> reachable nodes (goes_to w) -> forall k, In k seen' -> reachable nodes k)
   (fun seen l seen' _ => (forall k, In k seen -> reachable nodes k) -> Forall (reachable nodes) (map goes_to l) -> forall k, In k seen' -> reachable nodes k)
   (fun seen l seen' _ => (forall k, In k seen -> reachable nodes k) -> Forall (fun '(x, y) => reachable nodes x /\ reachable nodes y) (map (fun '(x, y) => (goes_to x, goes_to y)) l) -> forall k, In k seen' -> reachable nodes k)).
  - auto.
  - intros seen k n v st Hk Hn Hd Hs Hr j [<-|Hj]; [exact Hr|auto].
  - intros seen k n l st seen' Hk Hn Hd Hl IH Hs Hr. cbn [goes_to] in Hr. apply IH; [intros j [<-|Hj]; auto|]. apply Forall_forall. intros j Hj. eapply Re_item; eassumption.
  - intros seen k n l st seen' Hk Hn Hd Hl IH Hs Hr. cbn [goes_to] in Hr. apply IH; [intros j [<-|Hj]; auto|]. apply Forall_forall. intros [x y] Hj. split; [eapply Re_key; eassumption|eapply Re_value; eassumption].
  - auto.
  - intros seen w s1 l s2 H1 I1 H2 I2 Hs Hf. cbn [map] in Hf. apply I2; [apply I1; [exact Hs|exact (Forall_inv Hf)]|exact (Forall_inv_tail Hf)].
  - auto.
  - intros seen x s1 y s2 l s3 H1 I1 H2 I2 H3 I3 Hs Hf. cbn [map] in Hf. pose proof (Forall_inv Hf) as [Hx Hy]. apply I3; [apply I2; [apply I1; assumption|exact Hy]|exact (Forall_inv_tail Hf)].
Qed.
Definition child (k j : Z) : Prop := exists n, kth_node nodes k = Some n /\
  match n_data n with Document.NSequence ks _ => In j ks | Document.NMapping kvs _ => exists x y, In (x, y) kvs /\ (j = x \/ j = y) | _ => False end.
Lemma walk_closed :
  (forall seen w seen', walks nodes seen w seen' -> forall k j, In k seen' -> ~ In k seen -> child k j -> In j seen') /\
  (forall seen l seen', walks_list nodes seen l seen' -> forall k j, In k seen' -> ~ In k seen -> child k j -> In j seen') /\
  (forall seen l seen', walks_pairs nodes seen l seen' -> forall k j, In k seen' -> ~ In k seen -> child k j -> In j seen').
Proof.
  destruct walk_grows as (G1 & G2 & G3).
  apply (walks_mut nodes
   (fun seen w seen' _ => forall k j, In k seen' -> ~ In k seen -> child k j -> In j seen')
   (fun seen l seen' _ => forall k j, In k seen' -> ~ In k seen -> child k j -> In j seen')
   (fun seen l seen' _ => forall k j, In k seen' -> ~ In k seen -> child k j -> In j seen')).
  - intros; contradiction.
  - intros seen k n v st Hk Hn Hd j i [<-|Hj] Ho (n' & Hn' & Hc); [|contradiction]. rewrite Hn in Hn'. injection Hn' as <-. rewrite Hd in Hc. destruct Hc.
  - intros seen k n l st seen' Hk Hn Hd Hl IH j i Hj Ho Hc. destruct (Z.eq_dec k j) as [<-|Hne]; [|apply (IH j i Hj); [intros [Q|Q]; congruence|exact Hc]].
    destruct Hc as (n' & Hn' & Hc). rewrite Hn in Hn'. injection Hn' as <-. rewrite Hd in Hc. destruct (G2 _ _ _ Hl) as (_ & F & _). rewrite Forall_forall in F. apply F, Hc.
  - intros seen k n l st seen' Hk Hn Hd Hl IH j i Hj Ho Hc. destruct (Z.eq_dec k j) as [<-|Hne]; [|apply (IH j i Hj); [intros [Q|Q]; congruence|exact Hc]].
    destruct Hc as (n' & Hn' & Hc). rewrite Hn in Hn'. injection Hn' as <-. rewrite Hd in Hc. destruct Hc as (x & y & Hin & Hxy). destruct (G3 _ _ _ Hl) as (_ & F & _). rewrite Forall_forall in F. specialize (F _ Hin). cbn in F. destruct F. destruct Hxy; subst; assumption.
  - intros; contradiction.
  - intros seen w s1 l s2 H1 I1 H2 I2 k j Hk Ho Hc. destruct (G2 _ _ _ H2) as (Gr & _). destruct (in_dec Z.eq_dec k s1) as [Hi|Hi]; [apply (grows_in _ _ _ Gr), (I1 k j Hi Ho Hc)|apply (I2 k j Hk Hi Hc)].
  - intros; contradiction.
  - intros seen x s1 y s2 l s3 H1 I1 H2 I2 H3 I3 k j Hk Ho Hc. destruct (G1 _ _ _ H2) as (Gr & _). destruct (G3 _ _ _ H3) as (Gr3 & _).
    destruct (in_dec Z.eq_dec k s2) as [Hi|Hi]; [|apply (I3 k j Hk Hi Hc)]. apply (grows_in _ _ _ Gr3). destruct (in_dec Z.eq_dec k s1) as [Hi1|Hi1]; [apply (grows_in _ _ _ Gr), (I1 k j Hi1 Ho Hc)|apply (I2 k j Hi Hi1 Hc)].
Qed.
Lemma visited_reachable w seen : walks nodes [] w seen -> goes_to w = 1 -> forall k, In k seen <-> reachable nodes k.
Proof.
  intros W G k. split.
  - apply (proj1 walk_reaches _ _ _ W); [intros j []|rewrite G; constructor].
  - destruct walk_closed as (C & _ & _). specialize (C _ _ _ W). destruct walk_grows as (G1 & _ & _). destruct (G1 _ _ _ W) as (_ & Hr & _). rewrite G in Hr.
    induction 1 as [|k n ks st i H IH Hn Hd Hi|k n kvs st x y H IH Hn Hd Hi|k n kvs st x y H IH Hn Hd Hi]; [exact Hr|..]; apply (C k); auto; exists n; (split; [exact Hn|]); rewrite Hd; eauto 8.
Qed.
(** A document again. *)
Lemma walk_document w seen vd tds si ei es : walks nodes [] w seen -> goes_to w = 1 -> named name (revisited w) ->
  map e_data es = EvDocumentStart vd tds si :: map reread_one (wev nodes name w) ++ [EvDocumentEnd ei] ->
  exists d', document_of es d' /\ same_graph nodes (d_nodes d') /\ d_version_directive d' = vd /\ d_tag_directives d' = tds /\ d_start_implicit d' = si /\ d_end_implicit d' = ei.
Proof.
  intros W G R E. destruct es as [|[x s0 e0] es]; [discriminate|]. cbn [map e_data] in E. injection E as -> E.
  apply map_eq_app in E. destruct E as (es1 & es2 & -> & E1 & E2). apply one_map in E2. destruct E2 as ([x s1 e1] & -> & E2). cbn in E2. subst x.
  destruct (proj1 walk_loads _ _ _ W (NoDup_nil _) R es1 E1) as (t & Ht & L). assert (E0 : env_ok [] []) by (split; [intros k a []|intros a x H; discriminate H]). destruct (L [] E0) as (ns & env & N & _ & HL & T). clear E0 L.
  exists (Mk_doc ns vd tds si ei s0 e1). split.
  { unfold document_of. do 11 eexists. split; [|split; [exact N|reflexivity]]. rewrite Ht. reflexivity. }
  cbn [d_nodes d_version_directive d_tag_directives d_start_implicit d_end_implicit]. split; [|auto].
  destruct walk_grows as (G1 & _ & _). destruct (G1 _ _ _ W) as (_ & Hroot & Hnd). specialize (Hnd (NoDup_nil _)). rewrite G in Hroot. pose proof (visited_reachable w seen W G) as V.
  assert (Hat : at_ ns (len (@nil Z)) ns).
  { intros i nd Hi. unfold kth_node. replace (1 <=? len (@nil Z) + 1 + Z.of_nat i) with true by (symmetry; apply Z.leb_le; cbn [length]; lia). replace (Z.to_nat (len (@nil Z) + 1 + Z.of_nat i - 1)) with i by (cbn [length]; lia). exact Hi. }
  exists (pos seen). split; [|split; [|split]].
  - rewrite <- G. inversion W; subst; cbn [goes_to] in *; subst.
    + contradiction.
    + cbn [pos]. reflexivity.
    + destruct (proj1 (proj2 walk_grows) _ _ _ H2) as (Gr & _). rewrite (grows_pos _ _ 1 Gr Hnd (or_introl eq_refl)). reflexivity.
    + destruct (proj2 (proj2 walk_grows) _ _ _ H2) as (Gr & _). rewrite (grows_pos _ _ 1 Gr Hnd (or_introl eq_refl)). reflexivity.
  - intros k Hk. apply (T seen ns Hnd); [exists []; reflexivity|exact Hat|apply V, Hk|intros []].
  - intros j k Hj Hk. apply pos_inj; apply V; assumption.
  - intros i Hi. cbn [length] in HL. destruct (pos_onto seen Hnd i ltac:(lia)) as (k & Hk & E). exists k. split; [apply V, Hk|exact E].
Qed.
End load.
