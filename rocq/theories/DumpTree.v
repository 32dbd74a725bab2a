(** DumpTree.v -- trees: no anchors, and what is dumped can be loaded. *)
From Coq Require Import Lia ZifyBool ZifyNat ZifyN Bool.
From Verif Require Import Base State EState Emitter Document Spec_Document Spec_Dump ScanFacts DumpAnchors DumpFacts.
Open Scope Z_scope.

(** ** A walk that comes back to no node *)
Lemma fresh_walk nodes :
  (forall seen w seen', walks nodes seen w seen' -> revisited w = [] -> incl seen seen' /\ ~ In (goes_to w) seen /\ In (goes_to w) seen') /\
  (forall seen l seen', walks_list nodes seen l seen' -> flat_map revisited l = [] ->
     incl seen seen' /\ NoDup (map goes_to l) /\ Forall (fun k => ~ In k seen /\ In k seen') (map goes_to l)) /\
  (forall seen l seen', walks_pairs nodes seen l seen' -> flat_map (fun '(x, y) => revisited x ++ revisited y) l = [] ->
     let ks := flat_map (fun '(x, y) => [goes_to x; goes_to y]) l in
     incl seen seen' /\ NoDup ks /\ Forall (fun k => ~ In k seen /\ In k seen') ks).
Proof.
  apply (walks_mut nodes
   (fun seen w seen' _ => revisited w = [] -> incl seen seen' /\ ~ In (goes_to w) seen /\ In (goes_to w) seen')
   (fun seen l seen' _ => flat_map revisited l = [] -> incl seen seen' /\ NoDup (map goes_to l) /\ Forall (fun k => ~ In k seen /\ In k seen') (map goes_to l))
   (fun seen l seen' _ => flat_map (fun '(x, y) => revisited x ++ revisited y) l = [] ->
     let ks := flat_map (fun '(x, y) => [goes_to x; goes_to y]) l in
     incl seen seen' /\ NoDup ks /\ Forall (fun k => ~ In k seen /\ In k seen') ks)).
  - intros seen k Hk R. cbn in R. discriminate.
  - intros seen k n v st Hk Hn Hd _. cbn [goes_to]. split; [intros x Hx; right; exact Hx|]. split; [exact Hk|left; reflexivity].
  - intros seen k n l st seen' Hk Hn Hd Hl IH R. cbn [goes_to revisited] in *. destruct (IH R) as (A & _ & _).
    split; [intros x Hx; apply A; right; exact Hx|]. split; [exact Hk|apply A; left; reflexivity].
  - intros seen k n l st seen' Hk Hn Hd Hl IH R. cbn [goes_to revisited] in *. destruct (IH R) as (A & _ & _).
    split; [intros x Hx; apply A; right; exact Hx|]. split; [exact Hk|apply A; left; reflexivity].
  - intros seen _. cbn. split; [intros x Hx; exact Hx|]. split; constructor.
  - intros seen w s1 l s2 H1 I1 H2 I2 R. cbn [flat_map map] in *. apply app_eq_nil in R. destruct R as [R1 R2].
    destruct (I1 R1) as (A & B & C). destruct (I2 R2) as (A2 & B2 & C2). split; [intros x Hx; auto|]. rewrite Forall_forall in C2. split.
    + constructor; [|exact B2]. intros Hin. apply (C2 _ Hin). exact C.
    + constructor; [split; auto|]. apply Forall_forall. intros x Hx. destruct (C2 x Hx). split; auto.
  - intros seen _. cbn. split; [intros x Hx; exact Hx|]. split; constructor.
  - intros seen x s1 y s2 l s3 H1 I1 H2 I2 H3 I3 R ks. subst ks. cbn [flat_map] in *. apply app_eq_nil in R. destruct R as [R1 R3]. apply app_eq_nil in R1. destruct R1 as [R1 R2].
    destruct (I1 R1) as (A & B & C). destruct (I2 R2) as (A2 & B2 & C2). destruct (I3 R3) as (A3 & B3 & C3). rewrite Forall_forall in C3. split; [intros z Hz; auto|]. cbn [app]. split.
    + constructor; [|constructor; [|exact B3]].
      * intros [E|Hin]; [apply B2; rewrite E; exact C|]. apply (C3 _ Hin). auto.
      * intros Hin. apply (C3 _ Hin). exact C2.
    + constructor; [split; auto|]. constructor; [split; auto|]. apply Forall_forall. intros z Hz. destruct (C3 z Hz) as [Q1 Q2]. split; [|exact Q2]. intros Hs. apply Q1. auto.
Qed.
Lemma references_once nodes w seen : walks nodes [] w seen -> goes_to w = 1 -> revisited w = [] -> NoDup (root_references nodes).
Proof.
  intros W G R. destruct (fresh_walk nodes) as (F1 & F2 & F3). unfold root_references. inversion W; subst; cbn [goes_to] in *; subst; cbn [revisited] in R.
  - destruct H.
  - rewrite H0, H1. constructor; [intros []|constructor].
  - rewrite H0, H1. destruct (F2 _ _ _ H2 R) as (_ & B & C). rewrite Forall_forall in C. constructor; [|exact B]. intros Hin. apply (C 1 Hin). left. reflexivity.
  - rewrite H0, H1. destruct (F3 _ _ _ H2 R) as (_ & B & C). rewrite Forall_forall in C.
    assert (E : flat_map (fun '(k, v) => [k; v]) (map (fun '(x, y) => (goes_to x, goes_to y)) l) = flat_map (fun '(x, y) => [goes_to x; goes_to y]) l).
    { clear. induction l as [|[x y] l IH]; [reflexivity|]. cbn. rewrite IH. reflexivity. }
    rewrite E. constructor; [|exact B]. intros Hin. apply (C 1 Hin). left. reflexivity.
Qed.
Lemma nodup_seconds l : NoDup l -> seconds [] l = [].
Proof.
  intros H. destruct (seconds [] l) as [|k r] eqn:E; [reflexivity|]. exfalso.
  assert (Hk : (2 <= occurrences k l)%nat) by (apply (seconds_twice k l []); rewrite E; left; reflexivity).
  pose proof (proj1 (NoDup_count_occ Z.eq_dec l) H k). unfold occurrences in Hk. lia.
Qed.
Lemma tree_no_names L nodes w seen : walks nodes [] w seen -> goes_to w = 1 -> revisited w = [] -> forall k, anchor_names L nodes k = None.
Proof. intros W G R k. unfold anchor_names. rewrite (nodup_seconds _ (references_once _ _ _ W G R)). reflexivity. Qed.

(** ** The events of such a walk *)
Lemma walk_preorder nodes name : (forall k, name k = None) ->
  (forall seen w seen', walks nodes seen w seen' -> revisited w = [] ->
     exists es, preorder nodes (goes_to w) es /\ events_of_walk nodes name w = map Some es) /\
  (forall seen l seen', walks_list nodes seen l seen' -> flat_map revisited l = [] ->
     exists es, preorder_list nodes (map goes_to l) es /\ flat_map (events_of_walk nodes name) l = map Some es) /\
  (forall seen l seen', walks_pairs nodes seen l seen' -> flat_map (fun '(x, y) => revisited x ++ revisited y) l = [] ->
     exists es, preorder_pairs nodes (map (fun '(x, y) => (goes_to x, goes_to y)) l) es /\
       flat_map (fun '(x, y) => events_of_walk nodes name x ++ events_of_walk nodes name y) l = map Some es).
Proof.
  intros Nm. apply (walks_mut nodes
   (fun seen w seen' _ => revisited w = [] -> exists es, preorder nodes (goes_to w) es /\ events_of_walk nodes name w = map Some es)
   (fun seen l seen' _ => flat_map revisited l = [] -> exists es, preorder_list nodes (map goes_to l) es /\ flat_map (events_of_walk nodes name) l = map Some es)
   (fun seen l seen' _ => flat_map (fun '(x, y) => revisited x ++ revisited y) l = [] ->
     exists es, preorder_pairs nodes (map (fun '(x, y) => (goes_to x, goes_to y)) l) es /\
       flat_map (fun '(x, y) => events_of_walk nodes name x ++ events_of_walk nodes name y) l = map Some es)).
  - intros seen k Hk R. cbn in R. discriminate.
  - intros seen k n v st Hk Hn Hd _. cbn [goes_to events_of_walk]. rewrite Hn, Hd, Nm. eexists. split; [econstructor; eassumption|reflexivity].
  - intros seen k n l st seen' Hk Hn Hd Hl IH R. cbn [goes_to events_of_walk revisited] in *. rewrite Hn, Hd, Nm. destruct (IH R) as (es & A & B).
    eexists. split; [eapply Pre_sequence; eassumption|]. rewrite B. cbn [map]. rewrite map_app. reflexivity.
  - intros seen k n l st seen' Hk Hn Hd Hl IH R. cbn [goes_to events_of_walk revisited] in *. rewrite Hn, Hd, Nm. destruct (IH R) as (es & A & B).
    eexists. split; [eapply Pre_mapping; eassumption|]. rewrite B. cbn [map]. rewrite map_app. reflexivity.
  - intros seen _. exists []. split; [constructor|reflexivity].
  - intros seen w s1 l s2 H1 I1 H2 I2 R. cbn [flat_map map] in *. apply app_eq_nil in R. destruct R as [R1 R2]. destruct (I1 R1) as (a & A & B). destruct (I2 R2) as (b & C & D).
    exists (a ++ b). split; [constructor; assumption|]. rewrite B, D, map_app. reflexivity.
  - intros seen _. exists []. split; [constructor|reflexivity].
  - intros seen x s1 y s2 l s3 H1 I1 H2 I2 H3 I3 R. cbn [flat_map map] in *. apply app_eq_nil in R. destruct R as [R1 R3]. apply app_eq_nil in R1. destruct R1 as [R1 R2].
    destruct (I1 R1) as (a & A & B). destruct (I2 R2) as (b & C & D). destruct (I3 R3) as (c & E & F).
    exists (a ++ b ++ c). split; [constructor; assumption|]. rewrite B, D, F, !map_app, <- app_assoc. reflexivity.
Qed.
Lemma send_some l s : send_all (map Some l) s = emit_all l s.
Proof. revert s. induction l as [|x l IH]; intros s; [reflexivity|]. cbn [map send_all send emit_all]. unfold bind. destruct (emit (event_new x) s) as [[[]|e|e|] s1]; auto. Qed.

(** ** Values *)
Scheme has_value_ind2 := Induction for has_value Sort Prop
  with have_values_ind2 := Induction for have_values Sort Prop
  with have_pairs_ind2 := Induction for have_pairs Sort Prop.
Combined Scheme values_mut from has_value_ind2, have_values_ind2, have_pairs_ind2.
Lemma value_unique nodes :
  (forall k v, has_value nodes k v -> forall v', has_value nodes k v' -> v = v') /\
  (forall ks l, have_values nodes ks l -> forall l', have_values nodes ks l' -> l = l') /\
  (forall ks l, have_pairs nodes ks l -> forall l', have_pairs nodes ks l' -> l = l').
Proof.
  apply (values_mut nodes (fun k v _ => forall v', has_value nodes k v' -> v = v') (fun ks l _ => forall l', have_values nodes ks l' -> l = l')
    (fun ks l _ => forall l', have_pairs nodes ks l' -> l = l')).
  - intros k n v st Hn Hd v' H. inversion H; subst; congruence.
  - intros k n ks st l Hn Hd Hl IH v' H. inversion H; subst; try congruence. assert (n0 = n) by congruence. subst. rewrite Hd in H1. injection H1 as -> ->. f_equal. auto.
  - intros k n ks st l Hn Hd Hl IH v' H. inversion H; subst; try congruence. assert (n0 = n) by congruence. subst. rewrite Hd in H1. injection H1 as -> ->. f_equal. auto.
  - intros l' H. inversion H; reflexivity.
  - intros k v ks l Hv I1 Hl I2 l' H. inversion H; subst. f_equal; auto.
  - intros l' H. inversion H; reflexivity.
  - intros k v x y ks l Hv I1 Hy I2 Hl I3 l' H. inversion H; subst. f_equal; [f_equal; auto|auto].
Qed.

(** ** Loading the events *)
Scheme preorder_ind2 := Induction for preorder Sort Prop
  with preorder_list_ind2 := Induction for preorder_list Sort Prop
  with preorder_pairs_ind2 := Induction for preorder_pairs Sort Prop.
Combined Scheme preorder_mut from preorder_ind2, preorder_list_ind2, preorder_pairs_ind2.
(** The nodes [ns] follow the first [n] nodes of the table. *)
Definition at_ (table : list node) (n : Z) (ns : list node) : Prop := forall i nd, nth_error ns i = Some nd -> kth_node table (n + 1 + Z.of_nat i) = Some nd.
Lemma at_head t n x ns : at_ t n (x :: ns) -> kth_node t (n + 1) = Some x /\ at_ t (n + 1) ns.
Proof.
  intros H. split; [specialize (H 0%nat x eq_refl); replace (n + 1 + Z.of_nat 0) with (n + 1) in H by lia; exact H|].
  intros i nd Hi. specialize (H (S i) nd Hi). replace (n + 1 + 1 + Z.of_nat i) with (n + 1 + Z.of_nat (S i)) by lia. exact H.
Qed.
Lemma at_app t n a b : at_ t n (a ++ b) -> at_ t n a /\ at_ t (n + Z.of_nat (length a)) b.
Proof.
  intros H. split.
  - intros i nd Hi. apply H. rewrite nth_error_app1; [exact Hi|]. apply nth_error_Some. congruence.
  - intros i nd Hi. replace (n + Z.of_nat (length a) + 1 + Z.of_nat i) with (n + 1 + Z.of_nat (length a + i)) by lia. apply H.
    rewrite nth_error_app2 by lia. replace (length a + i - length a)%nat with i by lia. exact Hi.
Qed.
Lemma tag_again t d : d <> lit "!" -> node_tag (node_tag t d) d = node_tag t d.
Proof.
  intros H. assert (str_eqb d (lit "!") = false) by (destruct (str_eqb d (lit "!")) eqn:E; [apply ScanFacts.str_eqb_eq in E; congruence|reflexivity]).
  destruct t as [t|]; cbn [node_tag]; [destruct (str_eqb t (lit "!")) eqn:E; cbn [node_tag]; rewrite ?E, ?H0; reflexivity|rewrite H0; reflexivity].
Qed.
Lemma one_map {A B} (f : A -> B) l x : map f l = [x] -> exists y, l = [y] /\ f y = x.
Proof. destruct l as [|y [|z l]]; cbn; intros H; try discriminate. injection H as <-. eauto. Qed.
Definition loads (nodes : list node) (k : Z) (t : tree) (v : value) : Prop :=
  has_value nodes k v /\ forall env n, 0 <= n -> exists ns, number env n t = inl (ns, env, n + 1) /\
     (forall table, at_ table n ns -> has_value table (n + 1) v).
Lemma load_preorder nodes :
  (forall k evs, preorder nodes k evs -> forall es, map e_data es = evs -> exists t v, events_of_tree t = es /\ loads nodes k t v) /\
  (forall ks evs, preorder_list nodes ks evs -> forall es, map e_data es = evs -> exists ts vs, flat_map events_of_tree ts = es /\
     have_values nodes ks vs /\ forall env n, 0 <= n -> exists ns js, number_list number env n ts = inl (ns, env, js) /\
     (forall table, at_ table n ns -> have_values table js vs)) /\
  (forall ks evs, preorder_pairs nodes ks evs -> forall es, map e_data es = evs -> exists ts vs, flat_map (fun '(k, v) => events_of_tree k ++ events_of_tree v) ts = es /\
     have_pairs nodes ks vs /\ forall env n, 0 <= n -> exists ns js, number_pairs number env n ts = inl (ns, env, js) /\
     (forall table, at_ table n ns -> have_pairs table js vs)).
Proof.
  apply (preorder_mut nodes
   (fun k evs _ => forall es, map e_data es = evs -> exists t v, events_of_tree t = es /\ loads nodes k t v)
   (fun ks evs _ => forall es, map e_data es = evs -> exists ts vs, flat_map events_of_tree ts = es /\
     have_values nodes ks vs /\ forall env n, 0 <= n -> exists ns js, number_list number env n ts = inl (ns, env, js) /\
     (forall table, at_ table n ns -> have_values table js vs))
   (fun ks evs _ => forall es, map e_data es = evs -> exists ts vs, flat_map (fun '(k, v) => events_of_tree k ++ events_of_tree v) ts = es /\
     have_pairs nodes ks vs /\ forall env n, 0 <= n -> exists ns js, number_pairs number env n ts = inl (ns, env, js) /\
     (forall table, at_ table n ns -> have_pairs table js vs))).
  - intros k n v st Hn Hd es E. apply one_map in E. destruct E as ([d s e] & -> & E). cbn in E. subst d.
    exists (TrScalar None (n_tag n) v (tag_is n STR_TAG) (tag_is n STR_TAG) st s e), (VScalar (node_tag (n_tag n) STR_TAG) v st).
    split; [reflexivity|]. split; [econstructor; eassumption|]. intros env m Hm. cbn [number declare]. eexists. split; [reflexivity|].
    intros table H. apply at_head in H. destruct H as [H _]. rewrite <- tag_again by discriminate. eapply (HV_scalar table (m + 1) _ v st H). reflexivity.
  - intros k n ks st es' Hn Hd Hl IH es E. destruct es as [|[d s e] es]; [discriminate|]. cbn [map e_data] in E. injection E as -> E.
    apply map_eq_app in E. destruct E as (es1 & es2 & -> & E1 & E2). apply one_map in E2. destruct E2 as ([d s2 e2] & -> & E2). cbn in E2. subst d.
    destruct (IH es1 E1) as (ts & vs & A & B & C).
    exists (TrSequence None (n_tag n) (tag_is n SEQ_TAG) st s e ts s2 e2), (VSequence (node_tag (n_tag n) SEQ_TAG) st vs).
    split; [cbn [events_of_tree]; rewrite A; reflexivity|]. split; [econstructor; eassumption|]. intros env m Hm. cbn [number declare].
    destruct (C env (m + 1) ltac:(lia)) as (ns & js & E & F). rewrite E. eexists. split; [reflexivity|].
    intros table H. apply at_head in H. destruct H as [H H2]. rewrite <- tag_again by discriminate. eapply (HV_sequence table (m + 1) _ js st vs H); [reflexivity|]. apply F, H2.
  - intros k n ks st es' Hn Hd Hl IH es E. destruct es as [|[d s e] es]; [discriminate|]. cbn [map e_data] in E. injection E as -> E.
    apply map_eq_app in E. destruct E as (es1 & es2 & -> & E1 & E2). apply one_map in E2. destruct E2 as ([d s2 e2] & -> & E2). cbn in E2. subst d.
    destruct (IH es1 E1) as (ts & vs & A & B & C).
    exists (TrMapping None (n_tag n) (tag_is n MAP_TAG) st s e ts s2 e2), (VMapping (node_tag (n_tag n) MAP_TAG) st vs).
    split; [cbn [events_of_tree]; rewrite A; reflexivity|]. split; [econstructor; eassumption|]. intros env m Hm. cbn [number declare].
    destruct (C env (m + 1) ltac:(lia)) as (ns & js & E & F). rewrite E. eexists. split; [reflexivity|].
    intros table H. apply at_head in H. destruct H as [H H2]. rewrite <- tag_again by discriminate. eapply (HV_mapping table (m + 1) _ js st vs H); [reflexivity|]. apply F, H2.
  - intros es E. apply map_eq_nil in E. subst es. exists [], []. split; [reflexivity|]. split; [constructor|]. intros env n Hn. exists [], []. split; [reflexivity|]. intros. constructor.
  - intros k ks a b H1 I1 H2 I2 es E. apply map_eq_app in E. destruct E as (e1 & e2 & -> & E1 & E2).
    destruct (I1 e1 E1) as (t & v & A & A2 & A3). destruct (I2 e2 E2) as (ts & vs & B & B2 & B3).
    exists (t :: ts), (v :: vs). split; [cbn [flat_map]; rewrite A, B; reflexivity|]. split; [constructor; assumption|]. intros env n Hn. cbn [number_list].
    destruct (A3 env n Hn) as (ns1 & X1 & Y1). rewrite X1. destruct (B3 env (n + Z.of_nat (length ns1)) ltac:(lia)) as (ns2 & js & X2 & Y2). rewrite X2.
    eexists. eexists. split; [reflexivity|]. intros table H. apply at_app in H. destruct H. constructor; auto.
  - intros es E. apply map_eq_nil in E. subst es. exists [], []. split; [reflexivity|]. split; [constructor|]. intros env n Hn. exists [], []. split; [reflexivity|]. intros. constructor.
  - intros k v ks a b c H1 I1 H2 I2 H3 I3 es E. apply map_eq_app in E. destruct E as (e1 & e23 & -> & E1 & E23). apply map_eq_app in E23. destruct E23 as (e2 & e3 & -> & E2 & E3).
    destruct (I1 e1 E1) as (t & x & A & A2 & A3). destruct (I2 e2 E2) as (u & y & B & B2 & B3). destruct (I3 e3 E3) as (ts & vs & C & C2 & C3).
    exists ((t, u) :: ts), ((x, y) :: vs). split; [cbn [flat_map]; rewrite A, B, C, <- app_assoc; reflexivity|]. split; [constructor; assumption|]. intros env n Hn. cbn [number_pairs].
    destruct (A3 env n Hn) as (ns1 & X1 & Y1). rewrite X1. destruct (B3 env (n + Z.of_nat (length ns1)) ltac:(lia)) as (ns2 & X2 & Y2). rewrite X2.
    destruct (C3 env (n + Z.of_nat (length ns1) + Z.of_nat (length ns2)) ltac:(lia)) as (ns3 & js & X3 & Y3). rewrite X3.
    eexists. eexists. split; [reflexivity|]. intros table H. apply at_app in H. destruct H as [H H']. apply at_app in H'. destruct H' as [H' H'']. constructor; auto.
Qed.

(** ** Names of anchors *)
Fixpoint undec (acc : N) (l : list char) : N := match l with [] => acc | c :: r => undec (acc * 10 + (c - 48))%N r end.
Lemma undec_app a b : forall x, undec x (a ++ b) = undec (undec x a) b. Proof. induction a; intros x; cbn; auto. Qed.
Lemma undec_zeros k l : undec 0 (repeat 48%N k ++ l) = undec 0 l.
Proof. induction k; [reflexivity|]. cbn [repeat app undec]. exact IHk. Qed.
Ltac Zify.zify_post_hook ::= Z.div_mod_to_equations.
Lemma undec_go fuel : forall n acc x, (n < 2 ^ N.of_nat fuel)%N ->
  undec x (dec_go (S fuel) n acc) = undec (undec x (dec_go (S fuel) n [])) acc.
Proof.
  induction fuel as [|f IH]; intros n acc x H.
  - cbn [N.of_nat N.pow] in H. assert (n = 0%N) by lia. subst n. reflexivity.
  - change (dec_go (S (S f)) n acc) with (if (n <? 10)%N then (48 + n :: acc)%N else dec_go (S f) (n / 10) ((48 + n mod 10) :: acc)%N).
    change (dec_go (S (S f)) n []) with (if (n <? 10)%N then [48 + n]%N else dec_go (S f) (n / 10) [(48 + n mod 10)]%N).
    destruct (n <? 10)%N eqn:E; [reflexivity|].
    assert (H2 : (n / 10 < 2 ^ N.of_nat f)%N) by (rewrite Nat2N.inj_succ, N.pow_succ_r' in H; lia).
    rewrite (IH _ _ _ H2), (IH (n / 10)%N [(48 + n mod 10)%N] x H2). reflexivity.
Qed.
Lemma undec_value fuel : forall n, (n < 2 ^ N.of_nat fuel)%N -> undec 0 (dec_go (S fuel) n []) = n.
Proof.
  induction fuel as [|f IH]; intros n H.
  - cbn [N.of_nat N.pow] in H. assert (n = 0%N) by lia. subst n. reflexivity.
  - change (dec_go (S (S f)) n []) with (if (n <? 10)%N then [48 + n]%N else dec_go (S f) (n / 10) [(48 + n mod 10)]%N).
    destruct (n <? 10)%N eqn:E; [cbn [undec]; lia|].
    assert (H2 : (n / 10 < 2 ^ N.of_nat f)%N) by (rewrite Nat2N.inj_succ, N.pow_succ_r' in H; lia).
    rewrite (undec_go _ _ _ _ H2), (IH _ H2). cbn [undec]. lia.
Qed.
Ltac Zify.zify_post_hook ::= idtac.
Lemma undec_decimal n : undec 0 (decimal n) = n.
Proof. unfold decimal. apply undec_value. rewrite N2Nat.id. apply N.size_gt. Qed.
Lemma generate_inj i j : 0 <= i -> 0 <= j -> generate_anchor i = generate_anchor j -> i = j.
Proof.
  intros Hi Hj E. unfold generate_anchor in E. apply app_inv_head in E. apply (f_equal (undec 0)) in E. unfold pad3 in E. rewrite !undec_zeros, !undec_decimal in E. lia.
Qed.
