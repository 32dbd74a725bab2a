(** LaySave.v -- loading events that tell of a walk gives the same graph again (as SaveLoad.v, for output that is not canonical). *)
From Coq Require Import Lia ZifyBool ZifyNat ZifyN Bool.
From Verif Require Import Base Chars State EState Emitter Document Spec_Events Spec_Document Spec_Dump Spec_EmitNames Spec_Canonical Spec_Layout Spec_Save Spec_Kept ScanFacts DumpAnchors DumpFacts DumpTree SaveFacts SaveLoad.
Open Scope Z_scope.

Lemma told_app a : forall b l, Forall2 told (a ++ b) (map e_data l) -> exists x y, l = x ++ y /\ Forall2 told a (map e_data x) /\ Forall2 told b (map e_data y).
Proof.
  induction a as [|d a IH]; intros b l H; [exists [], l; repeat split; [constructor|exact H]|]. destruct l as [|e l]; [inversion H|]. cbn [app map] in H.
  assert (Hd : told d (e_data e)) by (inversion H; assumption). assert (Hr : Forall2 told (a ++ b) (map e_data l)) by (inversion H; assumption).
  destruct (IH b l Hr) as (x & y & -> & Hx & Hy). exists (e :: x), y. repeat split; [constructor; assumption|exact Hy].
Qed.
Lemma told_cons d a l : Forall2 told (d :: a) (map e_data l) -> exists e y, l = e :: y /\ told d (e_data e) /\ Forall2 told a (map e_data y).
Proof. intros H. destruct l as [|e l]; [inversion H|]. exists e, l. inversion H; auto. Qed.
Lemma told_one d l : Forall2 told [d] (map e_data l) -> exists e, l = [e] /\ told d (e_data e).
Proof. intros H. apply told_cons in H. destruct H as (e & y & -> & H & Hy). exists e. destruct y; [auto|inversion Hy]. Qed.
Lemma told_none l : Forall2 told [] (map e_data l) -> l = [].
Proof. intros H. destruct l; [reflexivity|inversion H]. Qed.
(** The tags of a dump: implied if they are the default ones. *)
Lemma tag_again n d : node_tag (kept_tag (n_tag n) (tag_is n d)) d = node_tag (n_tag n) d.
Proof.
  unfold kept_tag, tag_is. destruct (n_tag n) as [t|]; [|reflexivity]. destruct (str_eqb t d) eqn:E; [|reflexivity]. apply str_eqb_eq in E. subst t. cbn [node_tag]. destruct (str_eqb d (lit "!")); reflexivity.
Qed.
Lemma told_scalar n a v st x : told (EvScalar a (n_tag n) v (tag_is n STR_TAG) (tag_is n STR_TAG) st) x ->
  exists t pi qi st', x = EvScalar a t v pi qi st' /\ node_tag t STR_TAG = node_tag (n_tag n) STR_TAG.
Proof.
  intros H. remember (EvScalar a (n_tag n) v (tag_is n STR_TAG) (tag_is n STR_TAG) st) as d eqn:E. destruct H as [| | | | | | | | |a0 t v0 pi qi s t' pi' qi' s' H1 H2]; try discriminate E. injection E as -> -> -> -> -> ->.
  exists t', pi', qi', s'. split; [reflexivity|]. rewrite orb_diag in H1. assert (K : node_tag (kept_tag (n_tag n) (tag_is n STR_TAG)) STR_TAG = node_tag (n_tag n) STR_TAG) by apply tag_again.
  destruct H1 as [-> |(H1 & -> & _)]; [exact K|]. rewrite <- K, H1. reflexivity.
Qed.
Lemma told_alias a x : told (EvAlias a) x -> x = EvAlias a.
Proof. intros H. inversion H; reflexivity. Qed.
Lemma told_start_seq n a st x : told (EvSequenceStart a (n_tag n) (tag_is n SEQ_TAG) st) x -> exists t i st', x = EvSequenceStart a t i st' /\ node_tag t SEQ_TAG = node_tag (n_tag n) SEQ_TAG.
Proof. intros H. inversion H; subst. do 3 eexists. split; [reflexivity|]. apply tag_again. Qed.
Lemma told_start_map n a st x : told (EvMappingStart a (n_tag n) (tag_is n MAP_TAG) st) x -> exists t i st', x = EvMappingStart a t i st' /\ node_tag t MAP_TAG = node_tag (n_tag n) MAP_TAG.
Proof. intros H. inversion H; subst. do 3 eexists. split; [reflexivity|]. apply tag_again. Qed.
Lemma told_close_seq x : told EvSequenceEnd x -> x = EvSequenceEnd. Proof. intros H. inversion H; reflexivity. Qed.
Lemma told_close_map x : told EvMappingEnd x -> x = EvMappingEnd. Proof. intros H. inversion H; reflexivity. Qed.
Lemma told_doc vd tds si x : told (EvDocumentStart vd tds si) x -> exists i, x = EvDocumentStart vd tds i. Proof. intros H. inversion H; eauto. Qed.
Lemma told_doc_end i x : told (EvDocumentEnd i) x -> exists j, x = EvDocumentEnd j. Proof. intros H. inversion H; eauto. Qed.
Section load.
Variable nodes : list node.
Variable name : Z -> option str.
Hypothesis name_inj : forall j k a, name j = Some a -> name k = Some a -> j = k.
Notation env_ok := (env_ok name).
Definition tells (seen seen' : list Z) (ns : list node) : Prop :=
  len seen' = len seen + len ns /\
  forall F table, NoDup F -> grows seen' F -> at_ table (len seen) ns -> forall k, In k seen' -> ~ In k seen ->
    exists n n', kth_node nodes k = Some n /\ kth_node table (pos F k) = Some n' /\ kept_node (pos F) n n'.
Definition wloads (seen : list Z) (w : walk) (seen' : list Z) : Prop :=
  NoDup seen -> named name (revisited w) -> forall es, Forall2 told (wev nodes name w) (map e_data es) ->
  exists t, events_of_tree t = es /\ forall env, env_ok seen env -> exists ns env',
    number env (len seen) t = inl (ns, env', pos seen' (goes_to w)) /\ env_ok seen' env' /\ tells seen seen' ns.
Definition wloads_list (seen : list Z) (l : list walk) (seen' : list Z) : Prop :=
  NoDup seen -> named name (flat_map revisited l) -> forall es, Forall2 told (flat_map (wev nodes name) l) (map e_data es) ->
  exists ts, flat_map events_of_tree ts = es /\ forall env, env_ok seen env -> exists ns env',
    number_list number env (len seen) ts = inl (ns, env', map (pos seen') (map goes_to l)) /\ env_ok seen' env' /\ tells seen seen' ns.
Definition wloads_pairs (seen : list Z) (l : list (walk * walk)) (seen' : list Z) : Prop :=
  NoDup seen -> named name (revs l) -> forall es, Forall2 told (flat_map (fun '(x, y) => wev nodes name x ++ wev nodes name y) l) (map e_data es) ->
  exists ts, flat_map (fun '(k, v) => events_of_tree k ++ events_of_tree v) ts = es /\ forall env, env_ok seen env -> exists ns env',
    number_pairs number env (len seen) ts = inl (ns, env', map (fun '(x, y) => (pos seen' x, pos seen' y)) (map (fun '(x, y) => (goes_to x, goes_to y)) l)) /\ env_ok seen' env' /\ tells seen seen' ns.
Lemma tells_nil seen : tells seen seen [].
Proof. split; [cbn; lia|]. intros F table _ _ _ k H1 H2. contradiction. Qed.
Lemma tells_app a b c ns ns' : tells a b ns -> tells b c ns' -> grows b c -> tells a c (ns ++ ns').
Proof.
  intros [L1 T1] [L2 T2] G. split; [rewrite app_length; lia|]. intros F table Hn HF Hat k Hc Ha. apply at_app in Hat. destruct Hat as [H1 H2].
  destruct (in_dec Z.eq_dec k b) as [Hb|Hb].
  - apply (T1 F table Hn (grows_trans _ _ _ G HF) H1 k Hb Ha).
  - apply (T2 F table Hn HF); [rewrite L1; exact H2|exact Hc|exact Hb].
Qed.
(** A collection and what it contains. *)
Lemma tells_cons seen k n nd seen' ns : tells (k :: seen) seen' ns -> grows (k :: seen) seen' -> NoDup (k :: seen) -> kth_node nodes k = Some n ->
  (forall F, NoDup F -> grows seen' F -> kept_node (pos F) n nd) -> tells seen seen' (nd :: ns).
Proof.
  intros [L T] G Hn Hk Hs. split; [cbn [length] in *; lia|]. intros F table HnF HF Hat j Hj1 Hj2. apply at_head in Hat. destruct Hat as [H1 H2].
  destruct (Z.eq_dec j k) as [->|Hne].
  - exists n, nd. split; [exact Hk|]. split; [|apply Hs; assumption]. rewrite (grows_pos _ _ k (grows_trans _ _ _ G HF) HnF (or_introl eq_refl)). cbn [pos]. rewrite Z.eqb_refl. exact H1.
  - apply (T F table HnF HF); [|exact Hj1|intros [Q|Q]; congruence]. replace (len (k :: seen)) with (len seen + 1) by (cbn [length]; lia). exact H2.
Qed.
Lemma walk_loads :
  (forall seen w seen', walks nodes seen w seen' -> wloads seen w seen') /\
  (forall seen l seen', walks_list nodes seen l seen' -> wloads_list seen l seen') /\
  (forall seen l seen', walks_pairs nodes seen l seen' -> wloads_pairs seen l seen').
Proof.
  destruct (walk_grows nodes) as (G1 & G2 & G3).
  apply (walks_mut nodes (fun seen w seen' _ => wloads seen w seen') (fun seen l seen' _ => wloads_list seen l seen') (fun seen l seen' _ => wloads_pairs seen l seen')).
  - intros seen k Hk Hn R es E. cbn [wev goes_to] in *. destruct (name k) as [a|] eqn:Ea; [|exfalso; apply (R k); [left; reflexivity|exact Ea]].
    apply told_one in E. destruct E as ([d s e] & -> & E). cbn [e_data] in E. apply told_alias in E. subst d. exists (TrAlias a s e). split; [reflexivity|]. intros env Henv. exists [], env. cbn [number].
    destruct (proj1 Henv _ _ Hk Ea) as (m & ->). split; [reflexivity|]. split; [exact Henv|apply tells_nil].
  - intros seen k n v st Hk Hn Hd Hnd R es E. cbn [wev goes_to] in *. rewrite Hn, Hd in E. apply told_one in E. destruct E as ([d s e] & -> & E). cbn [e_data] in E. apply told_scalar in E. destruct E as (t & pi & qi & st' & -> & Et).
    eexists (TrScalar _ _ _ _ _ _ s e). split; [reflexivity|]. intros env Henv. cbn [number]. destruct (declares name name_inj _ _ k s Henv Hk) as (env1 & Ed & Henv1). rewrite Ed. eexists. exists env1.
    cbn [pos]. rewrite Z.eqb_refl. split; [reflexivity|]. split; [exact Henv1|]. apply (tells_cons _ k n); [apply tells_nil|exists []; reflexivity|constructor; assumption|exact Hn|].
    intros F _ _. unfold kept_node. rewrite Hd. cbn [n_data n_tag]. rewrite Et. eauto.
  - intros seen k n l st seen' Hk Hn Hd Hl IH Hnd R es E. cbn [wev goes_to] in *. rewrite Hn, Hd in E. apply told_cons in E. destruct E as ([d s e] & es' & -> & Eh & E). cbn [e_data] in Eh. first [apply told_start_seq in Eh|apply told_start_map in Eh]. destruct Eh as (t & i & st' & -> & Et).
    apply told_app in E. destruct E as (es1 & es2 & -> & E1 & E2). apply told_one in E2. destruct E2 as ([d s2 e2] & -> & E2). cbn [e_data] in E2. first [apply told_close_seq in E2|apply told_close_map in E2]. subst d.
    assert (Hnd' : NoDup (k :: seen)) by (constructor; assumption). destruct (IH Hnd' R es1 E1) as (ts & Ht & L). destruct (G2 _ _ _ Hl) as (Gr & Gi & Gn).
    eexists (TrSequence _ _ _ _ s e ts s2 e2). split; [cbn [events_of_tree]; rewrite Ht; reflexivity|]. intros env Henv. cbn [number]. destruct (declares name name_inj _ _ k s Henv Hk) as (env1 & Ed & Henv1). rewrite Ed.
    destruct (L env1 Henv1) as (ns & env' & En & Henv' & T). replace (len (k :: seen)) with (len seen + 1) in En by (cbn [length]; lia). rewrite En. eexists. exists env'.
    split; [rewrite (grows_pos _ _ k Gr (Gn Hnd') (or_introl eq_refl)); cbn [pos]; rewrite Z.eqb_refl; reflexivity|]. split; [exact Henv'|].
    apply (tells_cons _ k n _ _ _ T Gr Hnd' Hn). intros F HnF HF. unfold kept_node. rewrite Hd. cbn [n_data n_tag]. rewrite (map_pos _ _ F Gi HF HnF), Et. eauto.
  - intros seen k n l st seen' Hk Hn Hd Hl IH Hnd R es E. cbn [wev goes_to] in *. rewrite Hn, Hd in E. apply told_cons in E. destruct E as ([d s e] & es' & -> & Eh & E). cbn [e_data] in Eh. first [apply told_start_seq in Eh|apply told_start_map in Eh]. destruct Eh as (t & i & st' & -> & Et).
    apply told_app in E. destruct E as (es1 & es2 & -> & E1 & E2). apply told_one in E2. destruct E2 as ([d s2 e2] & -> & E2). cbn [e_data] in E2. first [apply told_close_seq in E2|apply told_close_map in E2]. subst d.
    assert (Hnd' : NoDup (k :: seen)) by (constructor; assumption). destruct (IH Hnd' R es1 E1) as (ts & Ht & L). destruct (G3 _ _ _ Hl) as (Gr & Gi & Gn).
    eexists (TrMapping _ _ _ _ s e ts s2 e2). split; [cbn [events_of_tree]; rewrite Ht; reflexivity|]. intros env Henv. cbn [number]. destruct (declares name name_inj _ _ k s Henv Hk) as (env1 & Ed & Henv1). rewrite Ed.
    destruct (L env1 Henv1) as (ns & env' & En & Henv' & T). replace (len (k :: seen)) with (len seen + 1) in En by (cbn [length]; lia). rewrite En. eexists. exists env'.
    split; [rewrite (grows_pos _ _ k Gr (Gn Hnd') (or_introl eq_refl)); cbn [pos]; rewrite Z.eqb_refl; reflexivity|]. split; [exact Henv'|].
    apply (tells_cons _ k n _ _ _ T Gr Hnd' Hn). intros F HnF HF. unfold kept_node. rewrite Hd. cbn [n_data n_tag]. rewrite (map_pos2 _ _ F Gi HF HnF), Et. eauto.
  - intros seen Hnd R es E. apply told_none in E. subst es. exists []. split; [reflexivity|]. intros env Henv. exists [], env. split; [reflexivity|]. split; [exact Henv|apply tells_nil].
  - intros seen w s1 l s2 H1 I1 H2 I2 Hnd R es E. cbn [flat_map] in *. apply named_app in R. destruct R as [R1 R2]. apply told_app in E. destruct E as (a & b & -> & E1 & E2).
    destruct (G1 _ _ _ H1) as (Gr & Gi & Gn). destruct (G2 _ _ _ H2) as (Gr2 & Gi2 & Gn2).
    destruct (I1 Hnd R1 a E1) as (t & Ht & L1). destruct (I2 (Gn Hnd) R2 b E2) as (ts & Hts & L2). exists (t :: ts). split; [cbn [flat_map]; rewrite Ht, Hts; reflexivity|].
    intros env Henv. cbn [number_list]. destruct (L1 env Henv) as (ns & env1 & N1 & Henv1 & T1). rewrite N1. destruct (L2 env1 Henv1) as (ns' & env2 & N2 & Henv2 & T2).
    replace (len seen + len ns) with (len s1) by (destruct T1; lia). rewrite N2. exists (ns ++ ns'), env2. cbn [map]. rewrite (grows_pos _ _ _ Gr2 (Gn2 (Gn Hnd)) Gi). split; [reflexivity|]. split; [exact Henv2|].
    eapply tells_app; eassumption.
  - intros seen Hnd R es E. apply told_none in E. subst es. exists []. split; [reflexivity|]. intros env Henv. exists [], env. split; [reflexivity|]. split; [exact Henv|apply tells_nil].
  - intros seen x s1 y s2 l s3 H1 I1 H2 I2 H3 I3 Hnd R es E. unfold revs in R. cbn [flat_map] in *. apply named_app in R. destruct R as [R12 R3]. apply named_app in R12. destruct R12 as [R1 R2].
    rewrite <- app_assoc in E. apply told_app in E. destruct E as (a & bc & -> & E1 & E). apply told_app in E. destruct E as (b & c & -> & E2 & E3).
    destruct (G1 _ _ _ H1) as (Gr & Gi & Gn). destruct (G1 _ _ _ H2) as (Gr2 & Gi2 & Gn2). destruct (G3 _ _ _ H3) as (Gr3 & Gi3 & Gn3).
    destruct (I1 Hnd R1 a E1) as (t & Ht & L1). destruct (I2 (Gn Hnd) R2 b E2) as (u & Hu & L2). destruct (I3 (Gn2 (Gn Hnd)) R3 c E3) as (ts & Hts & L3).
    exists ((t, u) :: ts). split; [cbn [flat_map]; rewrite Ht, Hu, Hts, <- app_assoc; reflexivity|].
    intros env Henv. cbn [number_pairs]. destruct (L1 env Henv) as (ns & env1 & N1 & Henv1 & T1). rewrite N1. destruct (L2 env1 Henv1) as (ns2 & env2 & N2 & Henv2 & T2).
    replace (len seen + len ns) with (len s1) by (destruct T1; lia). rewrite N2. destruct (L3 env2 Henv2) as (ns3 & env3 & N3 & Henv3 & T3). replace (len s1 + len ns2) with (len s2) by (destruct T2; lia). rewrite N3.
    exists (ns ++ ns2 ++ ns3), env3. cbn [map]. rewrite (grows_pos _ _ _ (grows_trans _ _ _ Gr2 Gr3) (Gn3 (Gn2 (Gn Hnd))) Gi), (grows_pos _ _ _ Gr3 (Gn3 (Gn2 (Gn Hnd))) Gi2). split; [reflexivity|]. split; [exact Henv3|].
    eapply tells_app; [exact T1| |eapply grows_trans; eassumption]. eapply tells_app; eassumption.
Qed.

(** A document again. *)
Lemma walk_document w seen vd tds si ei es : walks nodes [] w seen -> goes_to w = 1 -> named name (revisited w) ->
  Forall2 told (EvDocumentStart vd tds si :: wev nodes name w ++ [EvDocumentEnd ei]) (map e_data es) ->
  exists d', document_of es d' /\ kept_graph nodes (d_nodes d') /\ d_version_directive d' = vd /\ d_tag_directives d' = tds.
Proof.
  intros W G R E. apply told_cons in E. destruct E as ([x s0 e0] & es' & -> & Ex & E). cbn [e_data] in Ex. apply told_doc in Ex. destruct Ex as (si' & ->).
  apply told_app in E. destruct E as (es1 & es2 & -> & E1 & E2). apply told_one in E2. destruct E2 as ([x s1 e1] & -> & E2). cbn [e_data] in E2. apply told_doc_end in E2. destruct E2 as (ei' & ->).
  destruct (proj1 walk_loads _ _ _ W (NoDup_nil _) R es1 E1) as (t & Ht & L). assert (E0 : env_ok [] []) by (split; [intros k a []|intros a x H; discriminate H]). destruct (L [] E0) as (ns & env & N & _ & HL & T). clear E0 L.
  exists (Mk_doc ns vd tds si' ei' s0 e1). split.
  { unfold document_of. do 11 eexists. split; [|split; [exact N|reflexivity]]. rewrite Ht. reflexivity. }
  cbn [d_nodes d_version_directive d_tag_directives d_start_implicit d_end_implicit]. split; [|auto].
  destruct (walk_grows nodes) as (G1 & _ & _). destruct (G1 _ _ _ W) as (_ & Hroot & Hnd). specialize (Hnd (NoDup_nil _)). rewrite G in Hroot. pose proof (visited_reachable nodes w seen W G) as V.
  assert (Hat : at_ ns (len (@nil Z)) ns).
  { intros i nd Hi. unfold kth_node. replace (1 <=? len (@nil Z) + 1 + Z.of_nat i) with true by (symmetry; apply Z.leb_le; cbn [length]; lia). replace (Z.to_nat (len (@nil Z) + 1 + Z.of_nat i - 1)) with i by (cbn [length]; lia). exact Hi. }
  exists (pos seen). split; [|split; [|split]].
  - rewrite <- G. inversion W; subst; cbn [goes_to] in *; subst.
    + contradiction.
    + cbn [pos]. reflexivity.
    + destruct (proj1 (proj2 (walk_grows nodes)) _ _ _ H2) as (Gr & _). rewrite (grows_pos _ _ 1 Gr Hnd (or_introl eq_refl)). reflexivity.
    + destruct (proj2 (proj2 (walk_grows nodes)) _ _ _ H2) as (Gr & _). rewrite (grows_pos _ _ 1 Gr Hnd (or_introl eq_refl)). reflexivity.
  - intros k Hk. apply (T seen ns Hnd); [exists []; reflexivity|exact Hat|apply V, Hk|intros []].
  - intros j k Hj Hk. apply pos_inj; apply V; assumption.
  - intros i Hi. cbn [length] in HL. destruct (pos_onto seen Hnd i ltac:(lia)) as (k & Hk & E). exists k. split; [apply V, Hk|exact E].
Qed.
End load.
