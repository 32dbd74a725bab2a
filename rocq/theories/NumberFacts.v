(** NumberFacts.v -- properties of the numbering of Spec_Document.v. *)
From Coq Require Import ZifyBool ZifyNat ZifyN.
From Verif Require Import Base Spec_Events State Scanner ScanFacts Parser EState Emitter Document Spec_Document DocFacts LoadFacts.

(** ** Soundness *)
Definition num_ok (t : tree) : Prop := forall env n ns env' k, (0 <= n)%Z -> env_ok n env -> number env n t = inl (ns, env', k) ->
  env_ok (n + Z.of_nat (length ns)) env' /\ (1 <= k <= n + Z.of_nat (length ns))%Z /\ Forall (sound_node (n + Z.of_nat (length ns))) ns.
Lemma sound_mono a b nd : (a <= b)%Z -> sound_node a nd -> sound_node b nd.
Proof.
  intros H. unfold sound_node. destruct (n_data nd); auto; apply Forall_impl; [intros; lia|intros [] ?; lia].
Qed.
Lemma sound_monos a b l : (a <= b)%Z -> Forall (sound_node a) l -> Forall (sound_node b) l.
Proof. intros H. apply Forall_impl. intros nd. apply sound_mono, H. Qed.
Lemma num_list_ok l : Forall num_ok l -> forall env n ns env' ks, (0 <= n)%Z -> env_ok n env -> number_list number env n l = inl (ns, env', ks) ->
  env_ok (n + Z.of_nat (length ns)) env' /\ Forall (fun k => (1 <= k <= n + Z.of_nat (length ns))%Z) ks /\ Forall (sound_node (n + Z.of_nat (length ns))) ns.
Proof.
  induction 1 as [|t l Ht _ IH]; intros env n ns env' ks Hn He; cbn [number_list].
  - intros [= <- <- <-]. cbn. rewrite Z.add_0_r. auto.
  - destruct (number env n t) as [[[ns1 env1] k]|] eqn:E1; [|discriminate]. destruct (Ht _ _ _ _ _ Hn He E1) as (A1 & A2 & A3).
    destruct (number_list number env1 _ l) as [[[ns2 env2] ks2]|] eqn:E2; [|discriminate]. edestruct IH as (B1 & B2 & B3); [|exact A1|exact E2|]; [lia|].
    intros [= <- <- <-]. rewrite app_length, Nat2Z.inj_add, Z.add_assoc. split; [exact B1|]. split; [constructor; [lia|exact B2]|].
    apply Forall_app. split; [|exact B3]. eapply sound_monos; [|exact A3]. lia.
Qed.
Lemma num_pairs_ok l : Forall (fun '(k, v) => num_ok k /\ num_ok v) l -> forall env n ns env' kvs, (0 <= n)%Z -> env_ok n env -> number_pairs number env n l = inl (ns, env', kvs) ->
  env_ok (n + Z.of_nat (length ns)) env' /\ Forall (fun '(k, v) => (1 <= k <= n + Z.of_nat (length ns))%Z /\ (1 <= v <= n + Z.of_nat (length ns))%Z) kvs /\ Forall (sound_node (n + Z.of_nat (length ns))) ns.
Proof.
  induction 1 as [|[t u] l [Ht Hu] _ IH]; intros env n ns env' ks Hn He; cbn [number_pairs].
  - intros [= <- <- <-]. cbn. rewrite Z.add_0_r. auto.
  - destruct (number env n t) as [[[ns1 env1] k]|] eqn:E1; [|discriminate]. destruct (Ht _ _ _ _ _ Hn He E1) as (A1 & A2 & A3).
    destruct (number env1 _ u) as [[[ns2 env2] v]|] eqn:E2; [|discriminate]. edestruct Hu as (B1 & B2 & B3); [|exact A1|exact E2|]; [lia|].
    destruct (number_pairs number env2 _ l) as [[[ns3 env3] kvs]|] eqn:E3; [|discriminate]. edestruct IH as (C1 & C2 & C3); [|exact B1|exact E3|]; [lia|].
    intros [= <- <- <-]. rewrite !app_length, !Nat2Z.inj_add, !Z.add_assoc. split; [exact C1|]. split; [constructor; [lia|exact C2]|].
    apply Forall_app. split; [eapply sound_monos; [|exact A3]; lia|]. apply Forall_app. split; [eapply sound_monos; [|exact B3]; lia|exact C3].
Qed.
Lemma declare_ok1 an n m env env1 : (0 <= n)%Z -> env_ok n env -> declare an (n + 1) m env = inl env1 -> env_ok (n + 1) env1.
Proof. intros Hn He Hd. apply (declare_ok _ _ _ _ _ Hd); [lia|]. replace (n + 1 - 1)%Z with n by lia. exact He. Qed.
Lemma number_ok t : num_ok t.
Proof.
  induction t as [a s e|an tg v pi qi st s e|an tg im st s e l s2 e2 IH|an tg im st s e l s2 e2 IH] using tree_all; intros env n ns env' k Hn He; cbn [number].
  - destruct (lookup a env) as [[k0 m]|] eqn:El; [|discriminate]. intros [= <- <- <-]. cbn. rewrite Z.add_0_r. split; [exact He|]. split; [|constructor].
    apply (lookup_ok _ _ _ _ _ He El).
  - destruct (declare an (n + 1) s env) as [env1|] eqn:Ed; [|discriminate]. intros [= <- <- <-]. cbn [length]. split; [eapply declare_ok1; eassumption|].
    split; [lia|]. repeat constructor.
  - destruct (declare an (n + 1) s env) as [env1|] eqn:Ed; [|discriminate]. pose proof (declare_ok1 _ _ _ _ _ Hn He Ed) as He1.
    destruct (number_list number env1 (n + 1) l) as [[[ns1 env2] ks]|] eqn:El; [|discriminate]. edestruct num_list_ok as (A1 & A2 & A3); [exact IH| |exact He1|exact El|]; [lia|].
    intros [= <- <- <-]. cbn [length]. replace (n + Z.of_nat (S _))%Z with (n + 1 + Z.of_nat (length ns1))%Z by lia.
    split; [exact A1|]. split; [lia|]. constructor; [exact A2|exact A3].
  - destruct (declare an (n + 1) s env) as [env1|] eqn:Ed; [|discriminate]. pose proof (declare_ok1 _ _ _ _ _ Hn He Ed) as He1.
    destruct (number_pairs number env1 (n + 1) l) as [[[ns1 env2] ks]|] eqn:El; [|discriminate]. edestruct num_pairs_ok as (A1 & A2 & A3); [exact IH| |exact He1|exact El|]; [lia|].
    intros [= <- <- <-]. cbn [length]. replace (n + Z.of_nat (S _))%Z with (n + 1 + Z.of_nat (length ns1))%Z by lia.
    split; [exact A1|]. split; [lia|]. constructor; [exact A2|exact A3].
Qed.
(** The root is the first node. *)
Lemma number_root t ns env k : number [] 0 t = inl (ns, env, k) -> k = 1%Z /\ ns <> [].
Proof.
  destruct t; cbn [number]; [discriminate| | |];
  destruct (declare _ _ _ _) as [env1|]; try discriminate.
  - intros [= <- <- <-]. split; [reflexivity|discriminate].
  - destruct (number_list _ _ _ _) as [[[ns1 env2] ks]|]; [|discriminate]. intros [= <- <- <-]. split; [reflexivity|discriminate].
  - destruct (number_pairs _ _ _ _) as [[[ns1 env2] ks]|]; [|discriminate]. intros [= <- <- <-]. split; [reflexivity|discriminate].
Qed.

(** ** Each node is described by its event *)
Lemma starts_app a b : node_starts (a ++ b) = node_starts a ++ node_starts b.
Proof. apply filter_app. Qed.
Definition desc_ok (t : tree) : Prop := forall env n ns env' k, number env n t = inl (ns, env', k) -> Forall2 describes (node_starts (events_of_tree t)) ns.
Lemma desc_list l : Forall desc_ok l -> forall env n ns env' ks, number_list number env n l = inl (ns, env', ks) -> Forall2 describes (node_starts (flat_map events_of_tree l)) ns.
Proof.
  induction 1 as [|t l Ht _ IH]; intros env n ns env' ks; cbn [number_list flat_map].
  - intros [= <- <- <-]. constructor.
  - destruct (number env n t) as [[[ns1 env1] k]|] eqn:E1; [|discriminate]. destruct (number_list number env1 _ l) as [[[ns2 env2] ks2]|] eqn:E2; [|discriminate].
    intros [= <- <- <-]. rewrite starts_app. apply Forall2_app; eauto.
Qed.
Lemma desc_pairs l : Forall (fun '(k, v) => desc_ok k /\ desc_ok v) l -> forall env n ns env' ks, number_pairs number env n l = inl (ns, env', ks) ->
  Forall2 describes (node_starts (flat_map (fun '(k, v) => events_of_tree k ++ events_of_tree v) l)) ns.
Proof.
  induction 1 as [|[t u] l [Ht Hu] _ IH]; intros env n ns env' ks; cbn [number_pairs flat_map].
  - intros [= <- <- <-]. constructor.
  - destruct (number env n t) as [[[ns1 env1] k]|] eqn:E1; [|discriminate]. destruct (number env1 _ u) as [[[ns2 env2] v]|] eqn:E2; [|discriminate].
    destruct (number_pairs number env2 _ l) as [[[ns3 env3] kvs]|] eqn:E3; [|discriminate].
    intros [= <- <- <-]. rewrite !starts_app, <- app_assoc. apply Forall2_app; [eauto|]. apply Forall2_app; eauto.
Qed.
Lemma number_describes t : desc_ok t.
Proof.
  induction t as [a s e|an tg v pi qi st s e|an tg im st s e l s2 e2 IH|an tg im st s e l s2 e2 IH] using tree_all; intros env n ns env' k; cbn [number].
  - destruct (lookup a env) as [[k0 m]|]; [|discriminate]. intros [= <- <- <-]. constructor.
  - destruct (declare an (n + 1) s env) as [env1|]; [|discriminate]. intros [= <- <- <-]. constructor; [|constructor]. unfold describes. cbn. auto.
  - destruct (declare an (n + 1) s env) as [env1|]; [|discriminate]. destruct (number_list number env1 (n + 1) l) as [[[ns1 env2] ks]|] eqn:El; [|discriminate].
    intros [= <- <- <-]. unfold node_starts. cbn [events_of_tree filter]. unfold begins_node at 1. cbn [e_data]. constructor; [unfold describes; cbn; auto|].
    rewrite filter_app. cbn [filter begins_node e_data]. rewrite app_nil_r. eapply desc_list; eassumption.
  - destruct (declare an (n + 1) s env) as [env1|]; [|discriminate]. destruct (number_pairs number env1 (n + 1) l) as [[[ns1 env2] ks]|] eqn:El; [|discriminate].
    intros [= <- <- <-]. unfold node_starts. cbn [events_of_tree filter]. unfold begins_node at 1. cbn [e_data]. constructor; [unfold describes; cbn; auto|].
    rewrite filter_app. cbn [filter begins_node e_data]. rewrite app_nil_r. eapply desc_pairs; eassumption.
Qed.

(** ** Walking the table *)
Definition env_carries (es : list event) (env : anchors_env) : Prop := forall a k m, lookup a env = Some (k, m) -> carries es a k.
Section walk.
  Variables (nodes : list node) (es : list event).
  Definition walk_ok (t : tree) : Prop := forall env n ns env' k pre post A B,
    es = pre ++ events_of_tree t ++ post -> Z.of_nat (length (node_starts pre)) = n -> nodes = A ++ ns ++ B -> Z.of_nat (length A) = n -> env_carries es env ->
    number env n t = inl (ns, env', k) -> stands nodes es t k /\ env_carries es env'.
  Lemma desc_len env n t ns env' k : number env n t = inl (ns, env', k) -> length (node_starts (events_of_tree t)) = length ns.
  Proof. intros H. apply number_describes in H. clear -H. induction H; cbn; congruence. Qed.
  Lemma walk_list l : Forall walk_ok l -> forall env n ns env' ks pre post A B,
    es = pre ++ flat_map events_of_tree l ++ post -> Z.of_nat (length (node_starts pre)) = n -> nodes = A ++ ns ++ B -> Z.of_nat (length A) = n -> env_carries es env ->
    number_list number env n l = inl (ns, env', ks) -> stands_list nodes es l ks /\ env_carries es env'.
  Proof.
    induction 1 as [|t l Ht _ IH]; intros env n ns env' ks pre post A B He Hp Hn HA Henv; cbn [number_list flat_map] in *.
    - intros [= <- <- <-]. split; [constructor|exact Henv].
    - destruct (number env n t) as [[[ns1 env1] k]|] eqn:E1; [|discriminate]. destruct (number_list number env1 _ l) as [[[ns2 env2] ks2]|] eqn:E2; [|discriminate].
      intros [= <- <- <-]. pose proof (desc_len _ _ _ _ _ _ E1) as Hl. rewrite <- app_assoc in He, Hn.
      destruct (Ht _ _ _ _ _ pre _ A _ He Hp Hn HA Henv E1) as [S1 C1].
      edestruct (IH env1 (n + Z.of_nat (length ns1))%Z ns2 env2 ks2 (pre ++ events_of_tree t) post (A ++ ns1) B) as [S2 C2]; [ | | | |exact C1|exact E2| ].
      + rewrite He, <- app_assoc. reflexivity.
      + rewrite starts_app, app_length. lia.
      + rewrite Hn, <- app_assoc. reflexivity.
      + rewrite app_length. lia.
      + split; [constructor; assumption|exact C2].
  Qed.
  Lemma walk_pairs l : Forall (fun '(k, v) => walk_ok k /\ walk_ok v) l -> forall env n ns env' ks pre post A B,
    es = pre ++ flat_map (fun '(k, v) => events_of_tree k ++ events_of_tree v) l ++ post -> Z.of_nat (length (node_starts pre)) = n -> nodes = A ++ ns ++ B -> Z.of_nat (length A) = n -> env_carries es env ->
    number_pairs number env n l = inl (ns, env', ks) -> stands_pairs nodes es l ks /\ env_carries es env'.
  Proof.
    induction 1 as [|[t u] l [Ht Hu] _ IH]; intros env n ns env' ks pre post A B He Hp Hn HA Henv; cbn [number_pairs flat_map] in *.
    - intros [= <- <- <-]. split; [constructor|exact Henv].
    - destruct (number env n t) as [[[ns1 env1] k]|] eqn:E1; [|discriminate]. destruct (number env1 _ u) as [[[ns2 env2] v]|] eqn:E2; [|discriminate].
      destruct (number_pairs number env2 _ l) as [[[ns3 env3] kvs]|] eqn:E3; [|discriminate].
      intros [= <- <- <-]. pose proof (desc_len _ _ _ _ _ _ E1) as Hl. pose proof (desc_len _ _ _ _ _ _ E2) as Hl2. rewrite <- !app_assoc in He, Hn.
      destruct (Ht _ _ _ _ _ pre _ A _ He Hp Hn HA Henv E1) as [S1 C1].
      edestruct (Hu env1 (n + Z.of_nat (length ns1))%Z ns2 env2 v (pre ++ events_of_tree t) (flat_map (fun '(k, v) => events_of_tree k ++ events_of_tree v) l ++ post) (A ++ ns1) (ns3 ++ B)) as [S2 C2]; [ | | | |exact C1|exact E2| ].
      + rewrite He, <- !app_assoc. reflexivity.
      + rewrite starts_app, app_length. lia.
      + rewrite Hn, <- !app_assoc. reflexivity.
      + rewrite app_length. lia.
      + edestruct (IH env2 (n + Z.of_nat (length ns1) + Z.of_nat (length ns2))%Z ns3 env3 kvs (pre ++ events_of_tree t ++ events_of_tree u) post (A ++ ns1 ++ ns2) B) as [S3 C3]; [ | | | |exact C2|exact E3| ].
        * rewrite He, <- !app_assoc. reflexivity.
        * rewrite !starts_app, !app_length. lia.
        * rewrite Hn, <- !app_assoc. reflexivity.
        * rewrite !app_length. lia.
        * split; [constructor; assumption|exact C3].
  Qed.
  Lemma lookup_snoc a env b x : lookup a (env ++ [(b, x)]) = match lookup a env with Some y => Some y | None => if str_eqb b a then Some x else None end.
  Proof.
    unfold lookup. induction env as [|[c y] env IH]; cbn [app find fst]; [destruct (str_eqb b a); reflexivity|]. destruct (str_eqb c a); [reflexivity|exact IH].
  Qed.
  Lemma env_declare an n m env env1 pre e post : es = pre ++ e :: post -> begins_node e = true -> anchor_of (e_data e) = an -> Z.of_nat (length (node_starts pre)) = n ->
    env_carries es env -> declare an (n + 1) m env = inl env1 -> env_carries es env1.
  Proof.
    intros He Hb Ha Hp Henv. unfold declare. destruct an as [b|]; [|intros [= <-]; exact Henv]. destruct (lookup b env) as [[]|] eqn:El; [discriminate|]. intros [= <-] a k m'.
    rewrite lookup_snoc. destruct (lookup a env) as [[k0 m0]|] eqn:E; [intros [= -> ->]; eapply Henv; exact E|]. destruct (str_eqb b a) eqn:Eb; [|discriminate].
    apply str_eqb_eq in Eb. subst b. intros [= <- <-]. exists e. split; [lia|]. split; [|exact Ha]. rewrite He, starts_app. unfold node_starts at 2. cbn [filter]. rewrite Hb.
    rewrite nth_error_app2 by lia. replace (_ - _)%nat with O by lia. reflexivity.
  Qed.
  Lemma node_no_at A nd B n : nodes = A ++ nd :: B -> Z.of_nat (length A) = n -> kth_node nodes (n + 1) = Some nd.
  Proof. intros -> HA. unfold kth_node. replace (1 <=? n + 1)%Z with true by lia. apply node_no_mid. lia. Qed.
  Lemma tree_walk t : walk_ok t.
  Proof.
    induction t as [a s e|an tg v pi qi st s e|an tg im st s e l s2 e2 IH|an tg im st s e l s2 e2 IH] using tree_all; intros env n ns env' k pre post A B He Hp Hn HA Henv; cbn [number events_of_tree] in *.
    - destruct (lookup a env) as [[k0 m]|] eqn:El; [|discriminate]. intros [= <- <- <-]. split; [constructor; eapply Henv; exact El|exact Henv].
    - destruct (declare an (n + 1) s env) as [env1|] eqn:Ed; [|discriminate]. intros [= <- <- <-]. split; [constructor; eapply node_no_at; [exact Hn|exact HA]|].
      eapply env_declare; [exact He|reflexivity|reflexivity|exact Hp|exact Henv|exact Ed].
    - destruct (declare an (n + 1) s env) as [env1|] eqn:Ed; [|discriminate]. destruct (number_list number env1 (n + 1) l) as [[[ns1 env2] ks]|] eqn:El; [|discriminate].
      intros [= <- <- <-]. pose proof (env_declare _ _ _ _ _ pre (Mk_event (EvSequenceStart an tg im st) s e) _ He eq_refl eq_refl Hp Henv Ed) as Henv1.
      set (e1 := Mk_event (EvSequenceStart an tg im st) s e) in *.
      edestruct (walk_list _ IH env1 (n + 1)%Z ns1 env2 ks (pre ++ [e1]) ([Mk_event EvSequenceEnd s2 e2] ++ post) (A ++ [Mk_node (Document.NSequence ks st) (node_tag tg SEQ_TAG) s e2]) B) as [S2 C2]; [ | | | |exact Henv1|exact El| ].
      + rewrite He, <- !app_assoc. cbn [app]. rewrite <- app_assoc. reflexivity.
      + rewrite starts_app, app_length. cbn. lia.
      + rewrite Hn, <- app_assoc. reflexivity.
      + rewrite app_length. cbn. lia.
      + split; [|exact C2]. econstructor; [|exact S2]. eapply node_no_at; [exact Hn|exact HA].
    - destruct (declare an (n + 1) s env) as [env1|] eqn:Ed; [|discriminate]. destruct (number_pairs number env1 (n + 1) l) as [[[ns1 env2] ks]|] eqn:El; [|discriminate].
      intros [= <- <- <-]. pose proof (env_declare _ _ _ _ _ pre (Mk_event (EvMappingStart an tg im st) s e) _ He eq_refl eq_refl Hp Henv Ed) as Henv1.
      set (e1 := Mk_event (EvMappingStart an tg im st) s e) in *.
      edestruct (walk_pairs _ IH env1 (n + 1)%Z ns1 env2 ks (pre ++ [e1]) ([Mk_event EvMappingEnd s2 e2] ++ post) (A ++ [Mk_node (Document.NMapping ks st) (node_tag tg MAP_TAG) s e2]) B) as [S2 C2]; [ | | | |exact Henv1|exact El| ].
      + rewrite He, <- !app_assoc. cbn [app]. rewrite <- app_assoc. reflexivity.
      + rewrite starts_app, app_length. cbn. lia.
      + rewrite Hn, <- app_assoc. reflexivity.
      + rewrite app_length. cbn. lia.
      + split; [|exact C2]. econstructor; [|exact S2]. eapply node_no_at; [exact Hn|exact HA].
  Qed.
End walk.
Lemma number_stands t ns env k : number [] 0 t = inl (ns, env, k) -> forall d0 d1, begins_node d0 = false ->
  stands ns (d0 :: events_of_tree t ++ [d1]) t 1.
Proof.
  intros H d0 d1 Hd. destruct (number_root _ _ _ _ H) as [-> _].
  eapply (tree_walk ns (d0 :: events_of_tree t ++ [d1]) t [] 0%Z ns env 1%Z [d0] [d1] [] []); auto.
  - cbn. rewrite Hd. reflexivity.
  - rewrite app_nil_r. reflexivity.
  - intros a k m. discriminate.
Qed.
