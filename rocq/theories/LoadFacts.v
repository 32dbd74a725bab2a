(** LoadFacts.v -- loading: what the loader does with the events of a node. *)
From Coq Require Import ZifyBool ZifyNat ZifyN.
From Verif Require Import Base State Scanner Parser EState Emitter Document Spec_Document DocFacts.

(** The state of the loader without the parser. *)
Record core := Mk_core { c_al : list alias_data; c_doc : document; c_ctx : list Z }.
Definition embed (q : pst) (c : core) : lst := Mk_lst (set_aliases (c_al c) q) (c_doc c) (c_ctx c).
Definition cev (e : event) (c : core) : res (option (bool * mark)) * core :=
  match load_event e (embed (parser_new false) c) with
  | (r, l) => (r, Mk_core (aliases (l_parser l)) (l_doc l) (l_ctx l))
  end.
Lemma load_event_core q c e : load_event e (embed q c) = let '(r, c') := cev e c in (r, embed q c').
Proof.
  unfold cev. destruct c as [al d ctx]. unfold embed. cbn [c_al c_doc c_ctx].
  destruct e as [x s e]; unfold load_event, load_alias, load_push, load_node_add, register_anchor, load_end, push_ctx, on_parser, bind, get, modify, ret, panics, fail, set_l_doc, set_l_ctx, set_aliases.
  destruct x; cbn [e_data l_parser l_doc l_ctx aliases sc states state marks tag_directives e_start e_end c_al c_doc c_ctx];
    repeat first [reflexivity | match goal with |- context [match ?x with _ => _ end] => lazymatch x with context [match _ with _ => _ end] => fail | _ => destruct x eqn:?; cbn [l_parser l_doc l_ctx aliases sc states state marks tag_directives c_al c_doc c_ctx] in * end end].
Qed.

Fixpoint run (l : list event) (c : core) : res unit * core :=
  match l with
  | [] => (Ok tt, c)
  | e :: r => match cev e c with
              | (Ok _, c') => run r c'
              | (Err x, c') => (Err x, c')
              | (Panic x, c') => (Panic x, c')
              | (Fuel, c') => (Fuel, c')
              end
  end.
Lemma run_app a b c : run (a ++ b) c = match run a c with (Ok _, c') => run b c' | (r, c') => (r, c') end.
Proof.
  revert c. induction a as [|e a IH]; intros c; cbn [app run]; [destruct (run b c); reflexivity|].
  destruct (cev e c) as [[o|x|x|] c']; auto.
Qed.

(** Induction on trees. *)
Section tree_ind.
  Variable P : tree -> Prop.
  Hypothesis Ha : forall n s e, P (TrAlias n s e).
  Hypothesis Hs : forall an tg v pi qi st s e, P (TrScalar an tg v pi qi st s e).
  Hypothesis Hq : forall an tg im st s e l s2 e2, Forall P l -> P (TrSequence an tg im st s e l s2 e2).
  Hypothesis Hm : forall an tg im st s e l s2 e2, Forall (fun '(k, v) => P k /\ P v) l -> P (TrMapping an tg im st s e l s2 e2).
  Fixpoint tree_all (t : tree) : P t :=
    match t with
    | TrAlias n s e => Ha n s e
    | TrScalar an tg v pi qi st s e => Hs an tg v pi qi st s e
    | TrSequence an tg im st s e l s2 e2 =>
        Hq an tg im st s e l s2 e2 ((fix go l : Forall P l := match l with [] => Forall_nil _ | x :: r => Forall_cons _ (tree_all x) (go r) end) l)
    | TrMapping an tg im st s e l s2 e2 =>
        Hm an tg im st s e l s2 e2 ((fix go l : Forall (fun '(k, v) => P k /\ P v) l :=
           match l with [] => Forall_nil _ | (k, v) :: r => Forall_cons (k, v) (conj (tree_all k) (tree_all v)) (go r) end) l)
    end.
End tree_ind.

(** ** The effect of a node on the table *)
Definition add_child (k : Z) (d : node_data) : node_data :=
  match d with
  | NSequence items st => NSequence (items ++ [k]) st
  | NMapping pairs st => NMapping (add_to_pairs pairs k) st
  | d => d
  end.
Definition is_coll (n : node) : Prop := match n_data n with NSequence _ _ | NMapping _ _ => True | _ => False end.
Definition child (k : Z) (n : node) : node := with_data (add_child k (n_data n)) n.
(** The parent, if any, is the node at position [i] (from 0). *)
Definition attach (ctx : list Z) (k : Z) (ns : list node) : list node :=
  match ctx with [] => ns | p :: _ => upd (Z.to_nat (p - 1)) (child k) ns end.
Definition ctx_ok (ctx : list Z) (ns : list node) : Prop :=
  match ctx with [] => True | p :: _ => (1 <= p)%Z /\ exists n, nth_error ns (Z.to_nat (p - 1)) = Some n /\ is_coll n end.
Definition al_of (env : anchors_env) : list alias_data := map (fun '(a, (k, m)) => Mk_alias a (Z.to_N k) m) env.
Definition env_ok (len : Z) (env : anchors_env) : Prop := Forall (fun x => (1 <= fst (snd x) <= len)%Z) env.

Lemma find_al a env : find (fun x => str_eqb (al_anchor x) a) (al_of env) =
  match lookup a env with Some (k, m) => Some (Mk_alias a (Z.to_N k) m) | None => None end.
Proof.
  unfold al_of, lookup. induction env as [|[b [k m]] env IH]; [reflexivity|]. cbn [map find al_anchor fst].
  destruct (str_eqb b a) eqn:E; [|exact IH]. cbn [snd]. f_equal.
  assert (b = a) as ->; [|reflexivity]. clear -E. revert a E. induction b as [|x b IH]; intros [|y a]; cbn; try discriminate; [reflexivity|].
  intros H. apply andb_true_iff in H. destruct H as [H1 H2]. apply N.eqb_eq in H1. rewrite (IH _ H2), H1. reflexivity.
Qed.
Lemma lookup_ok len env a k m : env_ok len env -> lookup a env = Some (k, m) -> (1 <= k <= len)%Z.
Proof.
  unfold lookup. intros H E. destruct (find _ env) as [x|] eqn:Ef; [|discriminate]. apply find_some in Ef. destruct Ef as [Hin _].
  unfold env_ok in H. rewrite Forall_forall in H. specialize (H _ Hin). injection E as E. rewrite E in H. exact H.
Qed.

Lemma upd_app1 {A} n (f : A -> A) a b : (n < length a)%nat -> upd n f (a ++ b) = upd n f a ++ b.
Proof. revert a. induction n as [|n IH]; intros [|x a] H; cbn in *; try lia; [reflexivity|]. rewrite IH by lia. reflexivity. Qed.
Lemma upd_mid {A} (f : A -> A) a x b : upd (length a) f (a ++ x :: b) = a ++ f x :: b.
Proof. induction a as [|y a IH]; cbn; [reflexivity|]. rewrite IH. reflexivity. Qed.
Lemma upd_ext {A} n (f g : A -> A) l x : nth_error l n = Some x -> f x = g x -> upd n f l = upd n g l.
Proof. revert l. induction n as [|n IH]; intros [|y l] H E; cbn in *; try discriminate; [congruence|]. rewrite (IH _ H E). reflexivity. Qed.

Lemma load_node_add_eq p d ctx k : ctx_ok ctx (d_nodes d) ->
  load_node_add k (Mk_lst p d ctx) = (Ok tt, Mk_lst p (set_d_nodes (attach ctx k (d_nodes d)) d) ctx).
Proof.
  intros H. unfold load_node_add, bind, get, attach. cbn [l_ctx l_doc]. destruct ctx as [|i ctx].
  - unfold ret. destruct d; reflexivity.
  - destruct H as (Hi & n & Hn & Hc). unfold node_at, vec_index. replace (1 <=? i)%Z with true by lia. rewrite Hn. unfold is_coll in Hc.
    unfold modify, set_l_doc, upd_node, vec_index. replace (1 <=? i)%Z with true by lia. cbn [l_doc l_parser l_ctx].
    destruct (n_data n) eqn:En; try contradiction; do 3 f_equal; apply (upd_ext _ _ _ _ n Hn); unfold child; rewrite En; reflexivity.
Qed.
Lemma attach_len ctx k ns : length (attach ctx k ns) = length ns.
Proof. unfold attach. destruct ctx; [reflexivity|apply upd_length]. Qed.
Lemma attach_app ctx k a b : ctx_ok ctx a -> attach ctx k (a ++ b) = attach ctx k a ++ b.
Proof. unfold attach, ctx_ok. destruct ctx; [reflexivity|]. intros (_ & n & Hn & _). apply upd_app1. apply nth_error_Some. congruence. Qed.
Lemma ctx_ok_app ctx a b : ctx_ok ctx a -> ctx_ok ctx (a ++ b).
Proof.
  unfold ctx_ok. destruct ctx; [auto|]. intros (H & n & Hn & Hc). split; [exact H|]. exists n. split; [|exact Hc].
  rewrite nth_error_app1; [exact Hn|]. apply nth_error_Some. congruence.
Qed.
Lemma attach_ok ctx k a : ctx_ok ctx a -> ctx_ok ctx (attach ctx k a).
Proof.
  unfold ctx_ok, attach. destruct ctx; [auto|]. intros (H & n & Hn & Hc). split; [exact H|]. exists (child k n). split; [apply upd_same, Hn|].
  unfold is_coll, child in *. cbn. destruct (n_data n); cbn; auto.
Qed.

Lemma loaded_tag_eq tg x : loaded_tag tg x = node_tag tg x.
Proof. unfold loaded_tag, node_tag, is_none, opt_is. destruct tg; reflexivity. Qed.

(** Pushing a new node. *)
Lemma load_push_eq p d ctx n an env : ctx_ok ctx (d_nodes d) -> aliases p = al_of env ->
  load_push n an (Mk_lst p d ctx) =
  match declare an (doc_len d + 1)%Z (n_start n) env with
  | inl env1 => (Ok (doc_len d + 1)%Z, Mk_lst (set_aliases (al_of env1) p) (set_d_nodes (attach ctx (doc_len d + 1) (d_nodes d) ++ [n]) d) ctx)
  | inr x => (Err x, Mk_lst p (set_d_nodes (d_nodes d ++ [n]) d) ctx)
  end.
Proof.
  intros Hc Hal. unfold load_push, bind, get, modify, set_l_doc. cbn [l_doc l_parser l_ctx].
  set (d1 := set_d_nodes (d_nodes d ++ [n]) d).
  assert (Hadd : forall p', load_node_add (doc_len d + 1) (Mk_lst p' d1 ctx) = (Ok tt, Mk_lst p' (set_d_nodes (attach ctx (doc_len d + 1) (d_nodes d) ++ [n]) d) ctx)).
  { intros p'. rewrite load_node_add_eq by (apply ctx_ok_app, Hc). unfold d1. cbn [d_nodes set_d_nodes]. rewrite attach_app by exact Hc. reflexivity. }
  unfold register_anchor. destruct an as [a|].
  - unfold bind, get. cbn [l_doc l_parser]. assert (Hn : node_at (doc_len d + 1) d1 = Some n).
    { unfold node_at, vec_index, doc_len. destruct (1 <=? Z.of_nat (length (d_nodes d)) + 1)%Z eqn:E; [|lia].
      replace (Z.to_nat _) with (length (d_nodes d)) by lia. unfold d1. cbn [d_nodes set_d_nodes]. rewrite nth_error_app2, Nat.sub_diag by lia. reflexivity. }
    rewrite Hn, Hal, find_al. cbn [declare]. destruct (lookup a env) as [[k m]|]; [reflexivity|].
    unfold on_parser, modify. cbn [l_parser l_doc l_ctx]. rewrite Hadd. unfold ret. do 2 f_equal.
    unfold al_of. rewrite Hal, map_app. reflexivity.
  - cbn [declare]. unfold ret. rewrite Hadd. do 2 f_equal. rewrite <- Hal. destruct p; reflexivity.
Qed.

Lemma add_pairs_key ps k : Forall (fun x : Z * Z => snd x <> 0%Z) ps -> add_to_pairs ps k = ps ++ [(k, 0%Z)].
Proof.
  intros H. unfold add_to_pairs. destruct (last_opt ps) as [[a b]|] eqn:E; [|reflexivity].
  assert (In (a, b) ps). { clear H. induction ps as [|x [|y r] IH]; cbn in *; [discriminate|injection E as ->; auto|]. right. apply IH, E. }
  rewrite Forall_forall in H. specialize (H _ H0). cbn in H. destruct b; [contradiction|reflexivity..].
Qed.
Lemma last_opt_snoc {A} (l : list A) x : last_opt (l ++ [x]) = Some x.
Proof. induction l as [|y [|z l] IH]; [reflexivity|reflexivity|]. cbn [app last_opt] in *. exact IH. Qed.
Lemma add_pairs_value ps k v : add_to_pairs (ps ++ [(k, 0%Z)]) v = ps ++ [(k, v)].
Proof. unfold add_to_pairs. rewrite last_opt_snoc, removelast_last. reflexivity. Qed.

Definition with_nodes (c : core) (env : anchors_env) (ns : list node) : core := Mk_core (al_of env) (set_d_nodes ns (c_doc c)) (c_ctx c).
Definition node_ok (t : tree) : Prop := forall c env, ctx_ok (c_ctx c) (d_nodes (c_doc c)) -> c_al c = al_of env -> env_ok (doc_len (c_doc c)) env ->
  match number env (doc_len (c_doc c)) t with
  | inl (ns, env', k) =>
      run (events_of_tree t) c = (Ok tt, with_nodes c env' (attach (c_ctx c) k (d_nodes (c_doc c)) ++ ns)) /\
      env_ok (doc_len (c_doc c) + Z.of_nat (length ns)) env' /\ (1 <= k <= doc_len (c_doc c) + Z.of_nat (length ns))%Z
  | inr x => exists c', run (events_of_tree t) c = (Err x, c')
  end.

Lemma env_weaken a b env : (a <= b)%Z -> env_ok a env -> env_ok b env.
Proof. intros H. apply Forall_impl. intros x Hx. lia. Qed.
Lemma declare_ok an k m env env' : declare an k m env = inl env' -> (1 <= k)%Z -> env_ok (k - 1) env -> env_ok k env'.
Proof.
  unfold declare. destruct an as [a|]; [|intros [= <-] Hk H; eapply env_weaken; [|exact H]; lia].
  destruct (lookup a env) as [[]|]; [discriminate|]. intros [= <-] Hk H. apply Forall_app. split; [eapply env_weaken; [|exact H]; lia|].
  constructor; [cbn; lia|constructor].
Qed.

Lemma cev_push c env n an (k : Z -> M lst (option (bool * mark))) e :
  ctx_ok (c_ctx c) (d_nodes (c_doc c)) -> c_al c = al_of env ->
  (forall l, load_event e l = bind (load_push n an) k l) ->
  match declare an (doc_len (c_doc c) + 1)%Z (n_start n) env with
  | inl env1 => cev e c = match k (doc_len (c_doc c) + 1)%Z (embed (parser_new false) (with_nodes c env1 (attach (c_ctx c) (doc_len (c_doc c) + 1) (d_nodes (c_doc c)) ++ [n]))) with
                          | (r, l) => (r, Mk_core (aliases (l_parser l)) (l_doc l) (l_ctx l)) end
  | inr x => exists c', cev e c = (Err x, c')
  end.
Proof.
  intros Hc Hal He. unfold cev. rewrite He. unfold bind, embed.
  rewrite (load_push_eq _ (c_doc c) (c_ctx c) n an env Hc) by (rewrite Hal; reflexivity).
  destruct (declare an _ _ env) as [env1|x]; [|eexists; reflexivity]. unfold with_nodes. cbn [c_al c_doc c_ctx set_aliases]. reflexivity.
Qed.
Lemma nodes_id c env : c_al c = al_of env -> with_nodes c env (d_nodes (c_doc c)) = c.
Proof. intros H. unfold with_nodes. rewrite <- H. destruct c as [al [] ctx]; reflexivity. Qed.

Lemma node_no_mid (a : list node) n b i : i = (Z.of_nat (length a) + 1)%Z -> nth_error (a ++ n :: b) (Z.to_nat (i - 1)) = Some n.
Proof. intros ->. replace (Z.to_nat _) with (length a) by lia. rewrite nth_error_app2, Nat.sub_diag by lia. reflexivity. Qed.

(** Items of a sequence whose node is at the position after [A]. *)
Lemma items_ok l : Forall node_ok l -> forall c env A nd S items st, c_al c = al_of env -> env_ok (doc_len (c_doc c)) env ->
  d_nodes (c_doc c) = A ++ nd :: S -> n_data nd = NSequence items st -> (exists r, c_ctx c = (Z.of_nat (length A) + 1)%Z :: r) ->
  match number_list number env (doc_len (c_doc c)) l with
  | inl (ns, env', ks) =>
      run (flat_map events_of_tree l) c = (Ok tt, with_nodes c env' (A ++ with_data (NSequence (items ++ ks) st) nd :: S ++ ns)) /\
      env_ok (doc_len (c_doc c) + Z.of_nat (length ns)) env' /\ Forall (fun k => (1 <= k <= doc_len (c_doc c) + Z.of_nat (length ns))%Z) ks
  | inr x => exists c', run (flat_map events_of_tree l) c = (Err x, c')
  end.
Proof.
  induction 1 as [|t l Ht Hl IH]; intros c env A nd S items st Hal Henv Hns Hd (r & Hctx).
  - cbn. rewrite !app_nil_r, Z.add_0_r. split; [|auto]. f_equal. rewrite <- (nodes_id c env Hal) at 1. f_equal. rewrite Hns. f_equal. f_equal. destruct nd; cbn in *; subst; reflexivity.
  - cbn [number_list flat_map]. rewrite run_app.
    assert (Hok : ctx_ok (c_ctx c) (d_nodes (c_doc c))).
    { rewrite Hctx, Hns. cbn. split; [lia|]. exists nd. split; [apply node_no_mid; reflexivity|]. unfold is_coll. rewrite Hd. exact I. }
    specialize (Ht c env Hok Hal Henv). destruct (number env (doc_len (c_doc c)) t) as [[[ns env1] k]|x]; [|destruct Ht as (c' & ->); eauto].
    destruct Ht as (-> & He1 & Hk).
    assert (Hat : attach (c_ctx c) k (d_nodes (c_doc c)) = A ++ with_data (NSequence (items ++ [k]) st) nd :: S).
    { rewrite Hctx, Hns. cbn. replace (Z.to_nat _) with (length A) by lia. rewrite upd_mid. unfold child. rewrite Hd. reflexivity. }
    rewrite Hat, <- app_assoc. cbn [app]. set (c1 := with_nodes c env1 _).
    assert (Hlen : doc_len (c_doc c1) = (doc_len (c_doc c) + Z.of_nat (length ns))%Z).
    { unfold c1, with_nodes, doc_len. cbn. rewrite Hns, !app_length. cbn [length]. rewrite app_length. lia. }
    specialize (IH c1 env1 A (with_data (NSequence (items ++ [k]) st) nd) (S ++ ns) (items ++ [k]) st eq_refl).
    rewrite Hlen in IH. specialize (IH He1 eq_refl eq_refl (ex_intro _ r Hctx)). change (number_list number) with (number_list number) in *.
    destruct (number_list number env1 (doc_len (c_doc c) + Z.of_nat (length ns)) l) as [[[ns' env2] ks]|x]; [|exact IH].
    destruct IH as (-> & He2 & Hks). rewrite app_length, Nat2Z.inj_add, Z.add_assoc. split; [|split; [exact He2|constructor; [lia|exact Hks]]].
    unfold with_nodes, c1. cbn [c_doc c_ctx with_nodes set_d_nodes d_nodes]. rewrite <- !app_assoc. reflexivity.
Qed.
Lemma pairs_ok l : Forall (fun '(k, v) => node_ok k /\ node_ok v) l -> forall c env A nd S pairs st, c_al c = al_of env -> env_ok (doc_len (c_doc c)) env ->
  d_nodes (c_doc c) = A ++ nd :: S -> n_data nd = NMapping pairs st -> Forall (fun x : Z * Z => snd x <> 0%Z) pairs -> (exists r, c_ctx c = (Z.of_nat (length A) + 1)%Z :: r) ->
  match number_pairs number env (doc_len (c_doc c)) l with
  | inl (ns, env', kvs) =>
      run (flat_map (fun '(k, v) => events_of_tree k ++ events_of_tree v) l) c = (Ok tt, with_nodes c env' (A ++ with_data (NMapping (pairs ++ kvs) st) nd :: S ++ ns)) /\
      env_ok (doc_len (c_doc c) + Z.of_nat (length ns)) env' /\
      Forall (fun '(k, v) => (1 <= k <= doc_len (c_doc c) + Z.of_nat (length ns))%Z /\ (1 <= v <= doc_len (c_doc c) + Z.of_nat (length ns))%Z) kvs
  | inr x => exists c', run (flat_map (fun '(k, v) => events_of_tree k ++ events_of_tree v) l) c = (Err x, c')
  end.
Proof.
  induction 1 as [|[t u] l [Ht Hu] Hl IH]; intros c env A nd S pairs st Hal Henv Hns Hd Hp (r & Hctx).
  - cbn. rewrite !app_nil_r, Z.add_0_r. split; [|auto]. f_equal. rewrite <- (nodes_id c env Hal) at 1. f_equal. rewrite Hns. f_equal. f_equal. destruct nd; cbn in *; subst; reflexivity.
  - cbn [number_pairs flat_map]. rewrite <- app_assoc, run_app.
    assert (Hok : ctx_ok (c_ctx c) (d_nodes (c_doc c))).
    { rewrite Hctx, Hns. cbn. split; [lia|]. exists nd. split; [apply node_no_mid; reflexivity|]. unfold is_coll. rewrite Hd. exact I. }
    specialize (Ht c env Hok Hal Henv). destruct (number env (doc_len (c_doc c)) t) as [[[ns env1] k]|x]; [|destruct Ht as (c' & ->); eauto].
    destruct Ht as (-> & He1 & Hk).
    assert (Hat : attach (c_ctx c) k (d_nodes (c_doc c)) = A ++ with_data (NMapping (pairs ++ [(k, 0%Z)]) st) nd :: S).
    { rewrite Hctx, Hns. cbn. replace (Z.to_nat _) with (length A) by lia. rewrite upd_mid. unfold child. rewrite Hd. cbn [add_child]. rewrite add_pairs_key by exact Hp. reflexivity. }
    rewrite Hat, <- app_assoc. cbn [app]. set (c1 := with_nodes c env1 _).
    assert (Hlen : doc_len (c_doc c1) = (doc_len (c_doc c) + Z.of_nat (length ns))%Z).
    { unfold c1, with_nodes, doc_len. cbn. rewrite Hns, !app_length. cbn [length]. rewrite app_length. lia. }
    rewrite run_app.
    assert (Hok1 : ctx_ok (c_ctx c1) (d_nodes (c_doc c1))).
    { unfold c1. cbn. rewrite Hctx. cbn. split; [lia|]. eexists. split; [apply node_no_mid; reflexivity|]. exact I. }
    assert (He1' : env_ok (doc_len (c_doc c1)) env1) by (rewrite Hlen; exact He1).
    specialize (Hu c1 env1 Hok1 eq_refl He1'). rewrite Hlen in Hu.
    destruct (number env1 (doc_len (c_doc c) + Z.of_nat (length ns)) u) as [[[ns' env2] v]|x]; [|destruct Hu as (c' & ->); eauto].
    destruct Hu as (-> & He2 & Hv).
    assert (Hat1 : attach (c_ctx c1) v (d_nodes (c_doc c1)) = A ++ with_data (NMapping (pairs ++ [(k, v)]) st) nd :: S ++ ns).
    { unfold c1. cbn. rewrite Hctx. cbn. replace (Z.to_nat _) with (length A) by lia. rewrite upd_mid. unfold child. cbn [n_data with_data add_child]. rewrite add_pairs_value. reflexivity. }
    rewrite Hat1, <- app_assoc. cbn [app]. set (c2 := with_nodes c1 env2 _).
    assert (Hlen2 : doc_len (c_doc c2) = (doc_len (c_doc c) + Z.of_nat (length ns) + Z.of_nat (length ns'))%Z).
    { unfold c2, with_nodes, doc_len. cbn. rewrite Hns, !app_length. cbn [length]. rewrite !app_length. lia. }
    specialize (IH c2 env2 A (with_data (NMapping (pairs ++ [(k, v)]) st) nd) ((S ++ ns) ++ ns') (pairs ++ [(k, v)]) st eq_refl).
    rewrite Hlen2 in IH. assert (Hp2 : Forall (fun x : Z * Z => snd x <> 0%Z) (pairs ++ [(k, v)])).
    { apply Forall_app. split; [exact Hp|]. constructor; [cbn; lia|constructor]. }
    specialize (IH He2 eq_refl eq_refl Hp2 (ex_intro _ r Hctx)).
    destruct (number_pairs number env2 _ l) as [[[ns'' env3] kvs]|x]; [|exact IH].
    destruct IH as (-> & He3 & Hks). rewrite !app_length, !Nat2Z.inj_add, !Z.add_assoc. split; [|split; [exact He3|constructor; [lia|exact Hks]]].
    unfold with_nodes, c2, c1. cbn [c_doc c_ctx with_nodes set_d_nodes d_nodes]. rewrite <- !app_assoc. reflexivity.
Qed.

Lemma cev_end seq c A nd S r s2 e2 : d_nodes (c_doc c) = A ++ nd :: S -> c_ctx c = (Z.of_nat (length A) + 1)%Z :: r ->
  match n_data nd with NSequence _ _ => seq = true | NMapping _ _ => seq = false | _ => False end ->
  cev (Mk_event (if seq then EvSequenceEnd else EvMappingEnd) s2 e2) c =
  (Ok None, Mk_core (c_al c) (set_d_nodes (A ++ with_end e2 nd :: S) (c_doc c)) r).
Proof.
  intros Hns Hctx Hd. unfold cev, load_event. 
  assert (H : (load_end seq e2 ;; ret (@None (bool * mark))) (embed (parser_new false) c) =
    (Ok None, Mk_lst (set_aliases (c_al c) (parser_new false)) (set_d_nodes (A ++ with_end e2 nd :: S) (c_doc c)) r)).
  { unfold load_end, bind, get, embed. cbn [l_ctx l_doc]. rewrite Hctx. unfold node_at, vec_index. replace (1 <=? _)%Z with true by lia.
    rewrite Hns, (node_no_mid A nd S _ eq_refl).
    destruct (n_data nd); try contradiction; subst seq; unfold modify, set_l_ctx, set_l_doc, upd_node, vec_index; cbn [l_parser l_doc l_ctx];
    (replace (1 <=? _)%Z with true by lia); rewrite Hns; (replace (Z.to_nat (_ - 1)) with (length A) by lia); rewrite upd_mid; reflexivity. }
  destruct seq; cbn [e_data e_end]; rewrite H; reflexivity.
Qed.

Lemma attach_mid ctx k (a : list node) n : ctx_ok ctx a -> attach ctx k (a ++ [n]) = attach ctx k a ++ [n].
Proof. apply attach_app. Qed.

Lemma tree_node_ok t : node_ok t.
Proof.
  induction t as [a s e|an tg v pi qi st s e|an tg im st s e l s2 e2 IH|an tg im st s e l s2 e2 IH] using tree_all; intros c env Hc Hal Henv.
  - cbn [number events_of_tree run]. unfold cev, load_event, embed. cbn [e_data e_start]. unfold load_alias, bind, get. cbn [l_parser set_aliases aliases].
    rewrite Hal, find_al. destruct (lookup a env) as [[k m]|] eqn:El; [|eexists; reflexivity].
    pose proof (lookup_ok _ _ _ _ _ Henv El) as Hk. cbn [al_index]. rewrite Z2N.id by lia. rewrite load_node_add_eq by exact Hc. unfold ret.
    cbn [length]. rewrite app_nil_r, Z.add_0_r. split; [|auto]. reflexivity.
  - cbn [number events_of_tree run].
    pose proof (cev_push c env (Mk_node (NScalar v st) (node_tag tg STR_TAG) s e) an (fun _ => ret None) (Mk_event (EvScalar an tg v pi qi st) s e) Hc Hal) as H.
    cbn [n_start] in H. rewrite <- loaded_tag_eq in *. specialize (H ltac:(reflexivity)).
    destruct (declare an (doc_len (c_doc c) + 1) s env) as [env1|x] eqn:Ed; [|destruct H as (c' & ->); eauto].
    rewrite H. unfold ret. cbn [length]. split; [reflexivity|].
    assert (0 <= doc_len (c_doc c))%Z by (unfold doc_len; lia). split; [|lia].
    apply (declare_ok _ _ _ _ _ Ed); [lia|]. replace (_ + 1 - 1)%Z with (doc_len (c_doc c)) by lia. exact Henv.
  - cbn [number events_of_tree run].
    pose proof (cev_push c env (Mk_node (NSequence [] st) (node_tag tg SEQ_TAG) s e) an (fun i => push_ctx i ;; ret None) (Mk_event (EvSequenceStart an tg im st) s e) Hc Hal) as H.
    cbn [n_start] in H. rewrite <- loaded_tag_eq in H. specialize (H ltac:(reflexivity)). rewrite loaded_tag_eq in H.
    assert (H0 : (0 <= doc_len (c_doc c))%Z) by (unfold doc_len; lia).
    destruct (declare an (doc_len (c_doc c) + 1) s env) as [env1|x] eqn:Ed; [|destruct H as (c' & ->); eauto].
    assert (He1 : env_ok (doc_len (c_doc c) + 1) env1).
    { apply (declare_ok _ _ _ _ _ Ed); [lia|]. replace (_ + 1 - 1)%Z with (doc_len (c_doc c)) by lia. exact Henv. }
    rewrite H. unfold push_ctx, bind, modify, ret, embed, set_l_ctx. cbn [l_parser l_doc l_ctx with_nodes c_al c_doc c_ctx set_aliases aliases].
    set (A := attach (c_ctx c) (doc_len (c_doc c) + 1) (d_nodes (c_doc c))). set (nd := Mk_node _ _ s e). set (c1 := Mk_core _ _ _).
    assert (HlA : Z.of_nat (length A) = doc_len (c_doc c)) by (unfold A; rewrite attach_len; reflexivity).
    assert (Hl1 : doc_len (c_doc c1) = (doc_len (c_doc c) + 1)%Z).
    { unfold c1. unfold doc_len at 1. cbn [c_doc d_nodes set_d_nodes]. rewrite app_length. cbn [length]. lia. }
    rewrite run_app. pose proof (items_ok l IH c1 env1 A nd [] [] st eq_refl) as Hi. rewrite Hl1 in Hi.
    specialize (Hi He1 eq_refl eq_refl). rewrite HlA in Hi. specialize (Hi (ex_intro _ (c_ctx c) eq_refl)).
    destruct (number_list number env1 (doc_len (c_doc c) + 1) l) as [[[ns env2] ks]|x]; [|destruct Hi as (c' & ->); eauto].
    destruct Hi as (-> & He2 & Hks). cbn [app]. cbn [run].
    rewrite (cev_end true _ A (with_data (NSequence ks st) nd) ns (c_ctx c)); [|reflexivity|cbn; f_equal; lia|reflexivity].
    cbn [length]. replace (_ + Z.of_nat (Datatypes.S _))%Z with (doc_len (c_doc c) + 1 + Z.of_nat (length ns))%Z by lia.
    split; [|split; [exact He2|lia]]. unfold with_nodes, c1. cbn [c_al c_doc c_ctx]. destruct (c_doc c); reflexivity.
  - cbn [number events_of_tree run].
    pose proof (cev_push c env (Mk_node (NMapping [] st) (node_tag tg MAP_TAG) s e) an (fun i => push_ctx i ;; ret None) (Mk_event (EvMappingStart an tg im st) s e) Hc Hal) as H.
    cbn [n_start] in H. rewrite <- loaded_tag_eq in H. specialize (H ltac:(reflexivity)). rewrite loaded_tag_eq in H.
    assert (H0 : (0 <= doc_len (c_doc c))%Z) by (unfold doc_len; lia).
    destruct (declare an (doc_len (c_doc c) + 1) s env) as [env1|x] eqn:Ed; [|destruct H as (c' & ->); eauto].
    assert (He1 : env_ok (doc_len (c_doc c) + 1) env1).
    { apply (declare_ok _ _ _ _ _ Ed); [lia|]. replace (_ + 1 - 1)%Z with (doc_len (c_doc c)) by lia. exact Henv. }
    rewrite H. unfold push_ctx, bind, modify, ret, embed, set_l_ctx. cbn [l_parser l_doc l_ctx with_nodes c_al c_doc c_ctx set_aliases aliases].
    set (A := attach (c_ctx c) (doc_len (c_doc c) + 1) (d_nodes (c_doc c))). set (nd := Mk_node _ _ s e). set (c1 := Mk_core _ _ _).
    assert (HlA : Z.of_nat (length A) = doc_len (c_doc c)) by (unfold A; rewrite attach_len; reflexivity).
    assert (Hl1 : doc_len (c_doc c1) = (doc_len (c_doc c) + 1)%Z).
    { unfold c1. unfold doc_len at 1. cbn [c_doc d_nodes set_d_nodes]. rewrite app_length. cbn [length]. lia. }
    rewrite run_app. pose proof (pairs_ok l IH c1 env1 A nd [] [] st eq_refl) as Hi. rewrite Hl1 in Hi.
    specialize (Hi He1 eq_refl eq_refl (Forall_nil _)). rewrite HlA in Hi. specialize (Hi (ex_intro _ (c_ctx c) eq_refl)).
    destruct (number_pairs number env1 (doc_len (c_doc c) + 1) l) as [[[ns env2] ks]|x]; [|destruct Hi as (c' & ->); eauto].
    destruct Hi as (-> & He2 & Hks). cbn [app]. cbn [run].
    rewrite (cev_end false _ A (with_data (NMapping ks st) nd) ns (c_ctx c)); [|reflexivity|cbn; f_equal; lia|reflexivity].
    cbn [length]. replace (_ + Z.of_nat (Datatypes.S _))%Z with (doc_len (c_doc c) + 1 + Z.of_nat (length ns))%Z by lia.
    split; [|split; [exact He2|lia]]. unfold with_nodes, c1. cbn [c_al c_doc c_ctx]. destruct (c_doc c); reflexivity.
Qed.
