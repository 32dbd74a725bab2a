(** LoadedWalk.v -- walking through a loaded document meets its nodes in the order of their numbers;
    so a graph isomorphism between two such documents that keeps the root keeps every number. *)
From Coq Require Import Lia ZifyBool ZifyNat ZifyN Bool.
From Verif Require Import Base Spec_Events State EState Emitter Document Spec_Document Spec_Dump Spec_Save Spec_Resave DocFacts LoadFacts NumberFacts DumpFacts.
Open Scope Z_scope.

Fixpoint down (n : nat) : list Z := match n with O => [] | S m => Z.of_nat (S m) :: down m end.
Lemma down_in n k : In k (down n) <-> 1 <= k <= Z.of_nat n.
Proof. induction n as [|n IH]; cbn [down In]; [lia|]. rewrite IH. lia. Qed.
Lemma down_len n : length (down n) = n. Proof. induction n; cbn; congruence. Qed.


Section walk.
Variable nodes : list node.
Notation len l := (Z.of_nat (length l)).
Definition orderly (t : tree) : Prop := forall env n ns env' k A B,
  nodes = A ++ ns ++ B -> length A = n -> env_ok (Z.of_nat n) env -> number env (Z.of_nat n) t = inl (ns, env', k) ->
  exists w, goes_to w = k /\ walks nodes (down n) w (down (n + length ns)) /\ (Forall no_alias (events_of_tree t) -> revisited w = []).
Lemma orderly_list l : Forall orderly l -> forall env n ns env' ks A B,
  nodes = A ++ ns ++ B -> length A = n -> env_ok (Z.of_nat n) env -> number_list number env (Z.of_nat n) l = inl (ns, env', ks) ->
  exists ws, map goes_to ws = ks /\ walks_list nodes (down n) ws (down (n + length ns)) /\
    (Forall no_alias (flat_map events_of_tree l) -> flat_map revisited ws = []).
Proof.
  induction 1 as [|t l Ht _ IH]; intros env n ns env' ks A B Hn HA He; cbn [number_list flat_map].
  - intros [= <- <- <-]. exists []. cbn [length]. rewrite Nat.add_0_r. split; [reflexivity|]. split; [constructor|auto].
  - destruct (number env (Z.of_nat n) t) as [[[ns1 env1] k]|] eqn:E1; [|discriminate].
    destruct (number_ok _ _ _ _ _ _ (Zle_0_nat n) He E1) as (He1 & _ & _).
    replace (Z.of_nat n + len ns1) with (Z.of_nat (n + length ns1)) in * by lia.
    destruct (number_list number env1 _ l) as [[[ns2 env2] ks2]|] eqn:E2; [|discriminate]. intros [= <- <- <-]. rewrite <- app_assoc in Hn.
    destruct (Ht _ _ _ _ _ A _ Hn HA He E1) as (w & G & W & R).
    destruct (IH env1 (n + length ns1)%nat ns2 env2 ks2 (A ++ ns1) B) as (ws & Gs & Ws & Rs); [rewrite Hn, <- app_assoc; reflexivity|rewrite app_length; lia|exact He1|exact E2|].
    exists (w :: ws). rewrite app_length, Nat.add_assoc. split; [cbn [map]; congruence|]. split; [econstructor; eassumption|].
    intros F. apply Forall_app in F. destruct F as [F1 F2]. cbn [flat_map]. rewrite (R F1), (Rs F2). reflexivity.
Qed.
Lemma orderly_pairs l : Forall (fun '(k, v) => orderly k /\ orderly v) l -> forall env n ns env' kvs A B,
  nodes = A ++ ns ++ B -> length A = n -> env_ok (Z.of_nat n) env -> number_pairs number env (Z.of_nat n) l = inl (ns, env', kvs) ->
  exists ws, map (fun '(x, y) => (goes_to x, goes_to y)) ws = kvs /\ walks_pairs nodes (down n) ws (down (n + length ns)) /\
    (Forall no_alias (flat_map (fun '(k, v) => events_of_tree k ++ events_of_tree v) l) -> flat_map (fun '(x, y) => revisited x ++ revisited y) ws = []).
Proof.
  induction 1 as [|[t u] l [Ht Hu] _ IH]; intros env n ns env' kvs A B Hn HA He; cbn [number_pairs flat_map].
  - intros [= <- <- <-]. exists []. cbn [length]. rewrite Nat.add_0_r. split; [reflexivity|]. split; [constructor|auto].
  - destruct (number env (Z.of_nat n) t) as [[[ns1 env1] k]|] eqn:E1; [|discriminate].
    destruct (number_ok _ _ _ _ _ _ (Zle_0_nat n) He E1) as (He1 & _ & _).
    replace (Z.of_nat n + len ns1) with (Z.of_nat (n + length ns1)) in * by lia.
    destruct (number env1 _ u) as [[[ns2 env2] v]|] eqn:E2; [|discriminate].
    destruct (number_ok _ _ _ _ _ _ (Zle_0_nat _) He1 E2) as (He2 & _ & _).
    replace (Z.of_nat (n + length ns1) + len ns2) with (Z.of_nat (n + length ns1 + length ns2)) in * by lia.
    destruct (number_pairs number env2 _ l) as [[[ns3 env3] ks3]|] eqn:E3; [|discriminate]. intros [= <- <- <-]. rewrite <- !app_assoc in Hn.
    destruct (Ht _ _ _ _ _ A _ Hn HA He E1) as (w & G & W & R).
    destruct (Hu env1 (n + length ns1)%nat ns2 env2 v (A ++ ns1) (ns3 ++ B)) as (w2 & G2 & W2 & R2); [rewrite Hn, <- !app_assoc; reflexivity|rewrite app_length; lia|exact He1|exact E2|].
    destruct (IH env2 (n + length ns1 + length ns2)%nat ns3 env3 ks3 (A ++ ns1 ++ ns2) B) as (ws & Gs & Ws & Rs); [rewrite Hn, <- !app_assoc; reflexivity|rewrite !app_length; lia|exact He2|exact E3|].
    exists ((w, w2) :: ws). rewrite !app_length, !Nat.add_assoc. split; [cbn [map]; congruence|]. split; [econstructor; eassumption|].
    intros F. apply Forall_app in F. destruct F as [F1 F2]. apply Forall_app in F1. destruct F1 as [F0 F1]. cbn [flat_map]. rewrite (R F0), (R2 F1), (Rs F2). reflexivity.
Qed.
Lemma node_here A nd B n : nodes = A ++ nd :: B -> length A = n -> kth_node nodes (Z.of_nat n + 1) = Some nd.
Proof. intros Hn HA. apply (node_no_at nodes A nd B (Z.of_nat n) Hn). lia. Qed.
Lemma fresh n : ~ In (Z.of_nat n + 1) (down n). Proof. rewrite down_in. lia. Qed.
Lemma down_S n : Z.of_nat n + 1 :: down n = down (S n). Proof. cbn [down]. f_equal. lia. Qed.
Lemma tree_orderly t : orderly t.
Proof.
  induction t as [a s e|an tg v pi qi st s e|an tg im st s e l s2 e2 IH|an tg im st s e l s2 e2 IH] using tree_all; intros env n ns env' k A B Hn HA He; cbn [number events_of_tree].
  - destruct (lookup a env) as [[k0 m]|] eqn:El; [|discriminate]. intros [= <- <- <-]. exists (WkRef k0). cbn [length]. rewrite Nat.add_0_r. split; [reflexivity|].
    split; [constructor; apply down_in; pose proof (lookup_ok _ _ _ _ _ He El); lia|]. intros F. exact (False_ind _ (Forall_inv F)).
  - destruct (declare an _ s env) as [env1|]; [|discriminate]. intros [= <- <- <-]. exists (WkScalar (Z.of_nat n + 1)). split; [reflexivity|]. split; [|reflexivity].
    cbn [length]. rewrite Nat.add_1_r, <- down_S. eapply Wk_scalar; [apply fresh|eapply node_here; [exact Hn|exact HA]|reflexivity].
  - destruct (declare an (Z.of_nat n + 1) s env) as [env1|] eqn:Ed; [|discriminate]. pose proof (declare_ok1 _ _ _ _ _ (Zle_0_nat n) He Ed) as He1.
    replace (Z.of_nat n + 1) with (Z.of_nat (S n)) in He1 by lia. replace (number_list number env1 (Z.of_nat n + 1) l) with (number_list number env1 (Z.of_nat (S n)) l) by (f_equal; lia).
    destruct (number_list number env1 _ l) as [[[ns1 env2] ks]|] eqn:El; [|discriminate]. intros [= <- <- <-].
    destruct (orderly_list _ IH env1 (S n) ns1 env2 ks (A ++ [Mk_node (Document.NSequence ks st) (node_tag tg SEQ_TAG) s e2]) B) as (ws & Gs & Ws & Rs);
      [rewrite Hn, <- app_assoc; reflexivity|rewrite app_length; cbn [length]; lia|exact He1|exact El|].
    exists (WkSequence (Z.of_nat n + 1) ws). split; [reflexivity|]. cbn [length]. rewrite <- Nat.add_succ_comm. split.
    + eapply Wk_sequence; [apply fresh|eapply node_here; [exact Hn|exact HA]|cbn [n_data]; rewrite Gs; reflexivity|]. rewrite down_S. exact Ws.
    + intros F. apply Forall_inv_tail, Forall_app in F. cbn [revisited]. apply Rs, F.
  - destruct (declare an (Z.of_nat n + 1) s env) as [env1|] eqn:Ed; [|discriminate]. pose proof (declare_ok1 _ _ _ _ _ (Zle_0_nat n) He Ed) as He1.
    replace (Z.of_nat n + 1) with (Z.of_nat (S n)) in He1 by lia. replace (number_pairs number env1 (Z.of_nat n + 1) l) with (number_pairs number env1 (Z.of_nat (S n)) l) by (f_equal; lia).
    destruct (number_pairs number env1 _ l) as [[[ns1 env2] ks]|] eqn:El; [|discriminate]. intros [= <- <- <-].
    destruct (orderly_pairs _ IH env1 (S n) ns1 env2 ks (A ++ [Mk_node (Document.NMapping ks st) (node_tag tg MAP_TAG) s e2]) B) as (ws & Gs & Ws & Rs);
      [rewrite Hn, <- app_assoc; reflexivity|rewrite app_length; cbn [length]; lia|exact He1|exact El|].
    exists (WkMapping (Z.of_nat n + 1) ws). split; [reflexivity|]. cbn [length]. rewrite <- Nat.add_succ_comm. split.
    + eapply Wk_mapping; [apply fresh|eapply node_here; [exact Hn|exact HA]|cbn [n_data]; rewrite Gs; reflexivity|]. rewrite down_S. exact Ws.
    + intros F. apply Forall_inv_tail, Forall_app in F. cbn [revisited]. apply Rs, F.
Qed.
End walk.
Lemma loaded_walk g d : document_of g d ->
  exists w, walks (d_nodes d) [] w (down (length (d_nodes d))) /\ goes_to w = 1 /\ (Forall no_alias g -> revisited w = []).
Proof.
  intros (vd & tds & si & s0 & e0 & t & ei & s1 & e1 & env & k & Eg & Hn & _). destruct (number_root _ _ _ _ Hn) as [-> _].
  destruct (tree_orderly (d_nodes d) t [] 0%nat (d_nodes d) env 1 [] []) as (w & G & W & R); [rewrite app_nil_r; reflexivity|reflexivity|constructor|exact Hn|].
  exists w. split; [exact W|]. split; [exact G|]. intros F. apply R. rewrite Eg in F. apply Forall_inv_tail, Forall_app in F. apply F.
Qed.

(** ** Isomorphisms *)
Definition linked (m : Z -> Z) (n n' : node) : Prop :=
  match n_data n with
  | NoNode => False
  | NScalar v _ => exists st, n_data n' = NScalar v st
  | NSequence ks _ => exists st, n_data n' = NSequence (map m ks) st
  | NMapping kvs _ => exists st, n_data n' = NMapping (map (fun '(x, y) => (m x, m y)) kvs) st
  end.
Section iso.
Variables (a b : list node) (m : Z -> Z).
Hypothesis L : forall k, reachable a k -> exists n n', kth_node a k = Some n /\ kth_node b (m k) = Some n' /\ linked m n n'.
Hypothesis Inj : forall j k, reachable a j -> reachable a k -> m j = m k -> j = k.
Lemma new_here seen k : reachable a k -> Forall (reachable a) seen -> ~ In k seen -> ~ In (m k) (map m seen).
Proof.
  intros Hk Hs Hn Hi. apply in_map_iff in Hi. destruct Hi as (j & E & Hj). rewrite Forall_forall in Hs. rewrite (Inj j k (Hs _ Hj) Hk E) in Hj. contradiction.
Qed.
Lemma lockstep :
  (forall seen w s, walks a seen w s -> Forall (reachable a) seen -> reachable a (goes_to w) ->
     Forall (reachable a) s /\ forall w' s', walks b (map m seen) w' s' -> goes_to w' = m (goes_to w) -> s' = map m s) /\
  (forall seen l s, walks_list a seen l s -> Forall (reachable a) seen -> Forall (reachable a) (map goes_to l) ->
     Forall (reachable a) s /\ forall l' s', walks_list b (map m seen) l' s' -> map goes_to l' = map m (map goes_to l) -> s' = map m s) /\
  (forall seen l s, walks_pairs a seen l s -> Forall (reachable a) seen -> Forall (fun '(x, y) => reachable a (goes_to x) /\ reachable a (goes_to y)) l ->
     Forall (reachable a) s /\ forall l' s', walks_pairs b (map m seen) l' s' ->
       map (fun '(x, y) => (goes_to x, goes_to y)) l' = map (fun '(x, y) => (m (goes_to x), m (goes_to y))) l -> s' = map m s).
Proof.
  apply (walks_mut a
   (fun seen w s _ => Forall (reachable a) seen -> reachable a (goes_to w) -> Forall (reachable a) s /\ forall w' s', walks b (map m seen) w' s' -> goes_to w' = m (goes_to w) -> s' = map m s)
   (fun seen l s _ => Forall (reachable a) seen -> Forall (reachable a) (map goes_to l) -> Forall (reachable a) s /\ forall l' s', walks_list b (map m seen) l' s' -> map goes_to l' = map m (map goes_to l) -> s' = map m s)
   (fun seen l s _ => Forall (reachable a) seen -> Forall (fun '(x, y) => reachable a (goes_to x) /\ reachable a (goes_to y)) l ->
     Forall (reachable a) s /\ forall l' s', walks_pairs b (map m seen) l' s' -> map (fun '(x, y) => (goes_to x, goes_to y)) l' = map (fun '(x, y) => (m (goes_to x), m (goes_to y))) l -> s' = map m s)).
  - intros seen k Hk Hs Hr. split; [exact Hs|]. intros w' s' W G. cbn [goes_to] in G. pose proof (in_map m _ _ Hk) as Hk'. inversion W; subst; cbn [goes_to] in *; subst; try contradiction. reflexivity.
  - intros seen k n v st Hk Hn Hd Hs Hr. cbn [goes_to] in *. split; [constructor; assumption|]. intros w' s' W G. pose proof (new_here _ _ Hr Hs Hk) as Hk'.
    destruct (L k Hr) as (n1 & n' & K1 & K2 & Lk). rewrite Hn in K1. injection K1 as <-. unfold linked in Lk. rewrite Hd in Lk. destruct Lk as (st' & Hd').
    inversion W; subst; cbn [goes_to] in *; subst; try contradiction; try congruence. reflexivity.
  - intros seen k n l st s Hk Hn Hd Hl IH Hs Hr. cbn [goes_to] in *. pose proof (new_here _ _ Hr Hs Hk) as Hk'.
    destruct IH as [IH1 IH2]; [constructor; assumption| |].
    { apply Forall_forall. intros i Hi. eapply Re_item; [exact Hr|exact Hn|exact Hd|exact Hi]. }
    split; [exact IH1|]. intros w' s' W G.
    destruct (L k Hr) as (n1 & n' & K1 & K2 & Lk). rewrite Hn in K1. injection K1 as <-. unfold linked in Lk. rewrite Hd in Lk. destruct Lk as (st' & Hd').
    inversion W; subst; cbn [goes_to] in *; subst; try contradiction; try congruence. eapply IH2; [eassumption|]. congruence.
  - intros seen k n l st s Hk Hn Hd Hl IH Hs Hr. cbn [goes_to] in *. pose proof (new_here _ _ Hr Hs Hk) as Hk'.
    destruct IH as [IH1 IH2]; [constructor; assumption| |].
    { apply Forall_forall. intros [x y] Hi. assert (Hi' : In (goes_to x, goes_to y) (map (fun '(x, y) => (goes_to x, goes_to y)) l)) by (apply (in_map (fun '(x, y) => (goes_to x, goes_to y)) _ _ Hi)).
      split; [eapply Re_key|eapply Re_value]; [exact Hr|exact Hn|exact Hd|exact Hi'|exact Hr|exact Hn|exact Hd|exact Hi']. }
    split; [exact IH1|]. intros w' s' W G.
    destruct (L k Hr) as (n1 & n' & K1 & K2 & Lk). rewrite Hn in K1. injection K1 as <-. unfold linked in Lk. rewrite Hd in Lk. destruct Lk as (st' & Hd').
    inversion W; subst; cbn [goes_to] in *; subst; try contradiction; try congruence. eapply IH2; [eassumption|].
    rewrite map_map in Hd'.
    match goal with H1 : n_data ?x = NMapping _ _, H2 : kth_node b (m k) = Some ?x |- _ => rewrite K2 in H2; injection H2 as <-; rewrite Hd' in H1; injection H1 as H1 _ end.
    rewrite <- H1. apply map_ext. intros [x y]. reflexivity.
  - intros seen Hs _. split; [exact Hs|]. intros l' s' W E. inversion W; subst; [reflexivity|discriminate].
  - intros seen w s1 l s2 H1 I1 H2 I2 Hs Hr. cbn [map] in Hr. destruct (I1 Hs (Forall_inv Hr)) as [A1 A2]. destruct (I2 A1 (Forall_inv_tail Hr)) as [B1 B2]. split; [exact B1|].
    intros l' s' W E. cbn [map] in E. inversion W; subst; [discriminate|]. cbn [map] in E. injection E as E1 E2.
    match goal with X : walks b _ _ ?t, Y : walks_list b ?t _ _ |- _ => rewrite (A2 _ _ X E1) in Y; exact (B2 _ _ Y E2) end.
  - intros seen Hs _. split; [exact Hs|]. intros l' s' W E. inversion W; subst; [reflexivity|discriminate].
  - intros seen x s1 y s2 l s3 H1 I1 H2 I2 H3 I3 Hs Hr. destruct (Forall_inv Hr) as [R1 R2]. destruct (I1 Hs R1) as [A1 A2]. destruct (I2 A1 R2) as [B1 B2]. destruct (I3 B1 (Forall_inv_tail Hr)) as [C1 C2].
    split; [exact C1|]. intros l' s' W E. cbn [map] in E. inversion W; subst; [discriminate|]. cbn [map] in E. injection E as E1 E2 E3.
    match goal with X : walks b (map m seen) _ ?t, Y : walks b ?t _ ?u, V : walks_pairs b ?u _ _ |- _ =>
      rewrite (A2 _ _ X E1) in Y; rewrite (B2 _ _ Y E2) in V; exact (C2 _ _ V E3) end.
Qed.
Lemma down_map n n' : down n' = map m (down n) -> n' = n /\ forall k, 1 <= k <= Z.of_nat n -> m k = k.
Proof.
  intros E. assert (n' = n) by (rewrite <- (down_len n'), <- (down_len n), E, map_length; reflexivity). subst n'. split; [reflexivity|].
  clear - E. induction n as [|n IH]; intros k Hk; [lia|]. cbn [down map] in E. injection E as E1 E2. destruct (Z.eq_dec k (Z.of_nat (S n))) as [->|]; [symmetry; exact E1|]. apply IH; [exact E2|lia].
Qed.
Lemma iso_identity w w' : m 1 = 1 -> walks a [] w (down (length a)) -> goes_to w = 1 -> walks b [] w' (down (length b)) -> goes_to w' = 1 ->
  length b = length a /\ (forall k, 1 <= k <= Z.of_nat (length a) -> reachable a k /\ m k = k).
Proof.
  intros M1 W G W' G'. destruct lockstep as (H & _ & _). destruct (H _ _ _ W) as [R E]; [constructor|rewrite G; constructor|].
  specialize (E w' (down (length b)) W' ltac:(rewrite G, M1; exact G')). destruct (down_map _ _ E) as [E1 E2]. split; [exact E1|].
  intros k Hk. split; [|apply E2, Hk]. rewrite Forall_forall in R. apply R, down_in, Hk.
Qed.
End iso.
