(** LoadSession.v -- the loader and the event stream it consumes. *)
From Coq Require Import ZifyBool ZifyNat ZifyN.
From Verif Require Import Base Utf Chars State Reader Scanner Parser EState Emitter Document Api Wp ReaderFacts Spec_Tokens ScanFacts TokFacts FetchFacts FetchWp FetchLoop FlowFacts Spec_Scanner SessionFacts Spec_Parser ParserFacts ParserWalk ParserWalk2 ParserWalk3 ParserWalk4 ParserSession LoadAlias Spec_Document LoadFacts EventFacts.

Definition okev (es : list event) : list (res (option event)) := map (fun e => Ok (Some e)) es.

Lemma next_parse p : at_end p = false -> parser_next p = match parse p with (Ok e, p') => (Ok (Some e), p') | (Err x, p') => (Err x, p') | (Panic x, p') => (Panic x, p') | (Fuel, p') => (Fuel, p') end.
Proof. intros H. unfold parser_next, bind, get. rewrite H. destruct (parse p) as [[]]; reflexivity. Qed.
Lemma on_parser_embed p c : on_parser parse (embed p c) = let '(r, p') := parse p in (r, embed p' c).
Proof. unfold on_parser, embed. cbn [l_parser l_doc l_ctx]. rewrite al_parse. destruct (parse p). reflexivity. Qed.
Lemma parse_aliases p : aliases (snd (parse p)) = aliases p.
Proof.
  pose proof (al_parse (aliases p) p) as H. replace (set_aliases (aliases p) p) with p in H by (destruct p; reflexivity).
  destruct (parse p) as [r p'] eqn:E. injection H as H. cbn. rewrite H. reflexivity.
Qed.

Definition lbody := fun _ : unit =>
  e <- on_parser parse ;;
  o <- load_event e ;;
  match o with
  | Some x => ret (inr x)
  | None => ret (inl tt)
  end.

Definition is_de (e : event) : bool := match e_data e with EvDocumentEnd _ => true | _ => false end.
Definition no_de (e : event) : Prop := is_de e = false.

Inductive LOut (p : pst) (c : core) : res (bool * mark) * lst -> Prop :=
| LO_ok es ev imp p' c' : calls parser_next (S (length es)) p = (okev (es ++ [ev]), p') -> Forall no_de es -> run es c = (Ok tt, c') ->
    e_data ev = EvDocumentEnd imp -> LOut p c (Ok (imp, e_end ev), embed p' c')
| LO_perr es x p' c' : calls parser_next (S (length es)) p = (okev es ++ [Err x], p') -> Forall no_de es -> run es c = (Ok tt, c') ->
    LOut p c (Err x, embed p' c')
| LO_cerr es ev x p' c1 c' : calls parser_next (S (length es)) p = (okev (es ++ [ev]), p') -> Forall no_de (es ++ [ev]) -> run es c = (Ok tt, c1) ->
    cev ev c1 = (Err x, c') -> LOut p c (Err x, embed p' c')
| LO_ppan es x p' c' : calls parser_next (S (length es)) p = (okev es ++ [Panic x], p') -> Forall no_de es -> LOut p c (Panic x, embed p' c')
| LO_cpan es ev x p' c1 c' : calls parser_next (S (length es)) p = (okev (es ++ [ev]), p') -> Forall no_de (es ++ [ev]) -> run es c = (Ok tt, c1) ->
    fst (cev ev c1) = x -> match x with Panic _ | Fuel => True | _ => False end -> LOut p c (match x with Panic y => Panic y | _ => Fuel end, embed p' c').

Lemma LOut_cons p c e p1 c1 r : parser_next p = (Ok (Some e), p1) -> no_de e -> cev e c = (Ok None, c1) -> LOut p1 c1 r -> LOut p c r.
Proof.
  intros Hn He Hc H.
  assert (Hcalls : forall n os q, calls parser_next n p1 = (os, q) -> calls parser_next (S n) p = (Ok (Some e) :: os, q)).
  { intros n os q Hq. cbn [calls]. rewrite Hn, Hq. reflexivity. }
  assert (Hrun : forall es, run (e :: es) c = run es c1). { intros es. cbn [run]. rewrite Hc. reflexivity. }
  destruct H as [es ev imp p' c' H1 H2 H3 H4|es x p' c' H1 H2 H3|es ev x p' c2 c' H1 H2 H3 H4|es x p' c' H1 H2|es ev x p' c2 c' H1 H2 H3 H4 H5].
  - apply (LO_ok p c (e :: es)); auto; [apply Hcalls, H1|rewrite Hrun; exact H3].
  - apply (LO_perr p c (e :: es)); auto; [apply Hcalls, H1|rewrite Hrun; exact H3].
  - apply (LO_cerr p c (e :: es) ev x p' c2); auto; [apply Hcalls, H1|constructor; assumption|rewrite Hrun; exact H3].
  - apply (LO_ppan p c (e :: es)); auto. apply Hcalls, H1.
  - apply (LO_cpan p c (e :: es) ev x p' c2 c'); auto; [apply Hcalls, H1|constructor; assumption|rewrite Hrun; exact H3].
Qed.

Definition mu_l (p : pst) : nat := (rank (state p :: states p) + 4 * fuel_of p)%nat.

Lemma gdoc_step ds fs d g : gstep (GDoc ds fs) d = Some g ->
  match d with
  | EvDocumentEnd _ => g = GDocs
  | EvStreamStart _ | EvStreamEnd | EvDocumentStart _ _ _ => False
  | _ => exists fs', g = GDoc ds fs'
  end.
Proof.
  destruct d, fs as [|[] [|]]; cbn; intros H; try discriminate; try (injection H as <-); eauto.
Qed.

Lemma cev_de e c imp : e_data e = EvDocumentEnd imp -> cev e c = (Ok (Some (imp, e_end e)), c).
Proof. intros H. unfold cev, load_event. rewrite H. destruct c as [al d ctx]. reflexivity. Qed.
Lemma load_event_none e l x l' : is_de e = false -> load_event e l = (Ok x, l') -> x = None.
Proof.
  unfold is_de, load_event. destruct (e_data e); try discriminate; intros _; unfold bind; repeat match goal with |- context [match ?m with _ => _ end] => destruct m; try discriminate end; unfold ret; congruence.
Qed.
Lemma cev_none e c x c' : is_de e = false -> cev e c = (Ok x, c') -> x = None.
Proof. intros He. unfold cev. destruct (load_event e _) as [r l] eqn:E. intros [= -> _]. eapply load_event_none; eassumption. Qed.

Lemma loop_out st f : forall del lo ds fs p c, PI st del lo (GDoc ds fs) p -> (mu_l p < f)%nat -> LOut p c (loopM f lbody tt (embed p c)).
Proof.
  induction f as [|f IH]; intros del lo ds fs p c Hp Hf; [lia|]. cbn [loopM]. unfold lbody at 1, bind at 1 2. rewrite on_parser_embed.
  pose proof (next_ok _ _ _ _ _ Hp) as N.
  assert (Ha : at_end p = false).
  { rewrite (at_end_is_end _ _ _ _ _ Hp). destruct (is_end (state p)) eqn:E; [|reflexivity]. pose proof (is_end_g _ _ _ _ _ Hp E). discriminate. }
  rewrite (next_parse p Ha) in N. pose proof (next_parse p Ha) as Np. destruct (parse p) as [[e|x|x|] p1] eqn:E; cbn [fst snd next_spec] in N.
  - destruct N as (_ & ts & g' & [X1 X2 X3 X4 X5 X6 X7 X8 X9]). pose proof (gdoc_step _ _ _ _ X3) as Hd. unfold bind. rewrite load_event_core.
    destruct (cev e c) as [r c1] eqn:Ec.
    destruct (is_de e) eqn:Ede.
    + unfold is_de in Ede. destruct (e_data e) eqn:Ed; try discriminate. rewrite (cev_de _ _ _ Ed) in Ec. injection Ec as <- <-.
      unfold ret. apply (LO_ok p c [] e); auto. cbn [calls length]. rewrite Np. reflexivity.
    + assert (exists fs', g' = GDoc ds fs') as (fs' & ->).
      { unfold is_de in Ede. destruct (e_data e); try contradiction; try discriminate; exact Hd. }
      destruct r as [x|x|x|].
      * pose proof (cev_none _ _ _ _ Ede Ec) as ->. unfold ret. apply (LOut_cons p c e p1 c1 _ Np Ede Ec). eapply IH; [exact X4|].
        unfold mu_l, fuel_of in *. pose proof (pg_phi _ _ _ X5). pose proof (phi_nonneg (sc p1)). pose proof (phi_nonneg (sc p)). lia.
      * apply (LO_cerr p c [] e x p1 c); auto; [|repeat constructor; exact Ede]. cbn [calls length]. rewrite Np. reflexivity.
      * apply (LO_cpan p c [] e (Panic x) p1 c c1); auto; [|repeat constructor; exact Ede|rewrite Ec; reflexivity]. cbn [calls length]. rewrite Np. reflexivity.
      * apply (LO_cpan p c [] e Fuel p1 c c1); auto; [|repeat constructor; exact Ede|rewrite Ec; reflexivity]. cbn [calls length]. rewrite Np. reflexivity.
  - apply (LO_perr p c []); auto. cbn [calls length]. rewrite Np. reflexivity.
  - apply (LO_ppan p c []); auto. cbn [calls length]. rewrite Np. reflexivity.
  - contradiction.
Qed.

(** ** Trees behind the events of a document *)
Lemma map_split {A B} (f : A -> B) l a b : map f l = a ++ b -> exists x y, l = x ++ y /\ map f x = a /\ map f y = b.
Proof.
  revert l. induction a as [|u a IH]; intros l H; [exists [], l; auto|]. destruct l as [|v l]; [discriminate|]. cbn in H. injection H as E H.
  destruct (IH l H) as (x & y & -> & <- & <-). exists (v :: x), y. cbn. rewrite E. auto.
Qed.
Lemma tree_of :
  (forall l, Spec_Events.node_events l -> forall es, map e_data es = l -> exists t, events_of_tree t = es) /\
  (forall l, Spec_Events.nodes_events l -> forall es, map e_data es = l -> exists t, flat_map events_of_tree t = es) /\
  (forall l, Spec_Events.pairs_events l -> forall es, map e_data es = l -> exists t, flat_map (fun '(k, v) => events_of_tree k ++ events_of_tree v) t = es).
Proof.
  apply (EventFacts.events_ind (fun l _ => forall es, map e_data es = l -> exists t, events_of_tree t = es)
    (fun l _ => forall es, map e_data es = l -> exists t, flat_map events_of_tree t = es)
    (fun l _ => forall es, map e_data es = l -> exists t, flat_map (fun '(k, v) => events_of_tree k ++ events_of_tree v) t = es)).
  - intros a [|[d s e] [|]] H; try discriminate. cbn in H. injection H as ->. exists (TrAlias a s e). reflexivity.
  - intros a t v p q st [|[d s e] [|]] H; try discriminate. cbn in H. injection H as ->. exists (TrScalar a t v p q st s e). reflexivity.
  - intros a t i st l _ IH [|[d s e] es] H; [discriminate|]. cbn in H. injection H as -> H. apply map_split in H. destruct H as (x & y & -> & Hx & Hy).
    destruct y as [|[d s2 e2] [|]]; try discriminate. cbn in Hy. injection Hy as ->. destruct (IH x Hx) as (ts & <-).
    exists (TrSequence a t i st s e ts s2 e2). reflexivity.
  - intros a t i st l _ IH [|[d s e] es] H; [discriminate|]. cbn in H. injection H as -> H. apply map_split in H. destruct H as (x & y & -> & Hx & Hy).
    destruct y as [|[d s2 e2] [|]]; try discriminate. cbn in Hy. injection Hy as ->. destruct (IH x Hx) as (ts & <-).
    exists (TrMapping a t i st s e ts s2 e2). reflexivity.
  - intros [|] H; [|discriminate]. exists []. reflexivity.
  - intros n l _ IHn _ IHl es H. apply map_split in H. destruct H as (x & y & -> & Hx & Hy). destruct (IHn x Hx) as (t & <-).
    destruct (IHl y Hy) as (ts & <-). exists (t :: ts). reflexivity.
  - intros [|] H; [|discriminate]. exists []. reflexivity.
  - intros k v l _ IHk _ IHv _ IHl es H. apply map_split in H. destruct H as (x & y & -> & Hx & Hy). apply map_split in Hy.
    destruct Hy as (y1 & y2 & -> & Hy1 & Hy2). destruct (IHk x Hx) as (t & <-). destruct (IHv y1 Hy1) as (u & <-).
    destruct (IHl y2 Hy2) as (ts & <-). exists ((t, u) :: ts). cbn. rewrite <- app_assoc. reflexivity.
Qed.
Definition de_data (d : event_data) : bool := match d with EvDocumentEnd _ => true | _ => false end.
Lemma node_no_de :
  (forall l, Spec_Events.node_events l -> Forall (fun d => de_data d = false) l) /\
  (forall l, Spec_Events.nodes_events l -> Forall (fun d => de_data d = false) l) /\
  (forall l, Spec_Events.pairs_events l -> Forall (fun d => de_data d = false) l).
Proof.
  apply (EventFacts.events_ind (fun l _ => Forall (fun d => de_data d = false) l) (fun l _ => Forall (fun d => de_data d = false) l) (fun l _ => Forall (fun d => de_data d = false) l));
    intros; repeat first [assumption | apply Forall_nil | apply Forall_cons; [reflexivity|] | apply Forall_app; split].
Qed.
Lemma split_de (a b : list event_data) x : Forall (fun d => de_data d = false) a -> Forall (fun d => de_data d = false) b ->
  forall y u v, de_data x = true -> de_data y = true -> a ++ x :: u = b ++ y :: v -> a = b.
Proof.
  intros Ha. revert b. induction Ha as [|d a Hd Ha IH]; intros b Hb y u v Hx Hy H; destruct Hb as [|d' b Hd' Hb]; cbn in H; auto.
  - injection H as H _. congruence.
  - injection H as H _. congruence.
  - injection H as -> H. f_equal. eapply IH; eassumption.
Qed.
Lemma prefix_de (a b : list event_data) : Forall (fun d => de_data d = false) a -> forall r y v, de_data y = true -> a ++ r = b ++ y :: v ->
  exists r', b = a ++ r'.
Proof.
  intros Ha. revert b. induction Ha as [|d a Hd Ha IH]; intros b r y v Hy H; [exists b; reflexivity|]. destruct b as [|d' b]; cbn in H.
  - injection H as -> _. congruence.
  - injection H as -> H. destruct (IH _ _ _ _ Hy H) as (r' & ->). exists r'. reflexivity.
Qed.
Lemma no_de_data es : Forall no_de es -> Forall (fun d => de_data d = false) (map e_data es).
Proof. intros H. apply Forall_map. apply Forall_impl with (2 := H). intros e He. exact He. Qed.

Lemma prefix_tree es ds0 ds fs : grun (GDoc ds0 [FRoot]) (map e_data es) = Some (GDoc ds fs) -> Forall no_de es ->
  exists t r, events_of_tree t = es ++ r.
Proof.
  intros H Hes. assert (Hok : stack_ok fs). { apply (grun_ok _ (GDoc ds0 [FRoot]) _ I H). }
  destruct (tail_exists _ Hok) as (r & Hr). pose proof (accepts_run _ _ _ r H Hr) as Ha. cbn in Ha. inversion Ha as [|n l Hn Ht Heq| | |]; subst.
  inversion Ht; subst. destruct (prefix_de _ n (no_de_data _ Hes) r _ _ (eq_refl : de_data (EvDocumentEnd j) = true) (eq_sym H0)) as (r' & ->).
  destruct (proj1 tree_of _ Hn (es ++ map event_new r')) as (t & Ht').
  - rewrite map_app, map_map. f_equal. apply map_id.
  - eauto.
Qed.
Lemma full_tree es ds0 ds : grun (GDoc ds0 [FRoot]) (map e_data es) = Some (GDoc ds [FDone]) -> Forall no_de es ->
  exists t, events_of_tree t = es.
Proof.
  intros H Hes. pose proof (accepts_run _ _ (GDoc ds [FDone]) (EvDocumentEnd true :: [] ++ [EvStreamEnd]) H) as Ha. cbn [accepts] in Ha.
  specialize (Ha ltac:(constructor; constructor)). inversion Ha as [|n l Hn Ht Heq| | |]; subst. inversion Ht; subst.
  apply split_de in H0; [|apply (proj1 node_no_de), Hn|apply no_de_data, Hes|reflexivity|reflexivity]. subst n.
  apply (proj1 tree_of _ Hn). reflexivity.
Qed.

Definition start_core (d : document) : core := Mk_core [] d [].
Lemma run_tree t d : d_nodes d = [] ->
  match number [] 0 t with
  | inl (ns, env, k) => run (events_of_tree t) (start_core d) = (Ok tt, Mk_core (al_of env) (set_d_nodes ns d) [])
  | inr x => exists c', run (events_of_tree t) (start_core d) = (Err x, c')
  end.
Proof.
  intros Hd. pose proof (tree_node_ok t (start_core d) [] I eq_refl (Forall_nil _)) as H. unfold doc_len in H. cbn [start_core c_doc] in H. rewrite Hd in H.
  cbn [length] in H. change (Z.of_nat 0) with 0%Z in H. destruct (number [] 0 t) as [[[ns env] k]|x]; [|exact H]. destruct H as [-> _]. reflexivity.
Qed.
Lemma run_no_panic es ds0 ds fs d : grun (GDoc ds0 [FRoot]) (map e_data es) = Some (GDoc ds fs) -> Forall no_de es -> d_nodes d = [] ->
  match fst (run es (start_core d)) with Panic _ | Fuel => False | _ => True end.
Proof.
  intros H Hes Hd. destruct (prefix_tree _ _ _ _ H Hes) as (t & r & Ht). pose proof (run_tree t d Hd) as Hr. rewrite Ht, run_app in Hr.
  destruct (run es (start_core d)) as [[]]; cbn; auto; destruct (number [] 0 t) as [[[]]|]; try discriminate; destruct Hr; discriminate.
Qed.

(** ** Anchors *)
Lemma NoDup_app_cons {A} (l : list A) x : NoDup l -> ~ In x l -> NoDup (l ++ [x]).
Proof. intros H1 H2. apply NoDup_rev in H1. rewrite <- (rev_involutive (l ++ [x])). apply NoDup_rev. rewrite rev_app_distr. cbn. constructor; [rewrite <- in_rev; exact H2|exact H1]. Qed.
Definition al_key (x : alias_data) : str * mark := (al_anchor x, al_mark x).
Definition anchor_entry (e : event) : list (str * mark) :=
  match Spec_Events.anchor_of (e_data e) with Some a => [(a, e_start e)] | None => [] end.
Lemma register_eq p d ctx n an : register_anchor (doc_len d + 1) an (Mk_lst p (set_d_nodes (d_nodes d ++ [n]) d) ctx) =
  match an with
  | None => (Ok tt, Mk_lst p (set_d_nodes (d_nodes d ++ [n]) d) ctx)
  | Some a =>
      match find (fun x => str_eqb (al_anchor x) a) (aliases p) with
      | Some x => (Err (EComposer "found duplicate anchor; first occurrence" (al_mark x) "second occurrence" (n_start n)),
                   Mk_lst p (set_d_nodes (d_nodes d ++ [n]) d) ctx)
      | None => (Ok tt, Mk_lst (set_aliases (aliases p ++ [Mk_alias a (Z.to_N (doc_len d + 1)) (n_start n)]) p) (set_d_nodes (d_nodes d ++ [n]) d) ctx)
      end
  end.
Proof.
  unfold register_anchor. destruct an as [a|]; [|reflexivity]. unfold bind, get. cbn [l_doc l_parser].
  assert (Hn : node_at (doc_len d + 1) (set_d_nodes (d_nodes d ++ [n]) d) = Some n).
  { unfold node_at, vec_index, doc_len. destruct (1 <=? Z.of_nat (length (d_nodes d)) + 1)%Z eqn:E; [|lia].
    replace (Z.to_nat _) with (length (d_nodes d)) by lia. cbn [d_nodes set_d_nodes]. rewrite nth_error_app2, Nat.sub_diag by lia. reflexivity. }
  rewrite Hn. destruct (find _ _); reflexivity.
Qed.
Lemma node_add_al k l r l' : load_node_add k l = (r, l') -> aliases (l_parser l') = aliases (l_parser l) /\ (forall x, r <> Err x).
Proof.
  unfold load_node_add, bind, get. destruct (l_ctx l) as [|i c]; [intros [= <- <-]; split; [reflexivity|discriminate]|].
  destruct (node_at i (l_doc l)) as [n|]; [|intros [= <- <-]; split; [reflexivity|discriminate]].
  destruct (n_data n); intros [= <- <-]; (split; [reflexivity|discriminate]).
Qed.
Lemma push_al n an l r l' : load_push n an l = (r, l') ->
  match r with
  | Ok _ => map al_key (aliases (l_parser l')) = map al_key (aliases (l_parser l)) ++ match an with Some a => [(a, n_start n)] | None => [] end
            /\ forall a, an = Some a -> ~ In a (map al_anchor (aliases (l_parser l)))
  | Err x => exists a y, an = Some a /\ In y (aliases (l_parser l)) /\ al_anchor y = a /\
               x = EComposer "found duplicate anchor; first occurrence" (al_mark y) "second occurrence" (n_start n)
  | _ => True
  end.
Proof.
  destruct l as [p d ctx]. unfold load_push, bind, get, modify, set_l_doc. cbn [l_doc l_parser l_ctx]. rewrite register_eq.
  destruct an as [a|].
  - destruct (find _ (aliases p)) as [y|] eqn:Ef.
    + intros [= <- <-]. apply find_some in Ef. destruct Ef as [Hin Hy]. apply str_eqb_eq in Hy. exists a, y. auto.
    + destruct (load_node_add _ _) as [r1 l1] eqn:El. apply node_add_al in El. destruct El as [Hal Hne].
      destruct r1 as [[]|x|x|]; try (intros [= <- <-]; auto; fail).
      * unfold ret. intros [= <- <-]. rewrite Hal. cbn [l_parser set_aliases aliases]. split; [rewrite map_app; reflexivity|].
        intros a' [= <-] Hin. apply in_map_iff in Hin. destruct Hin as (y & Hy & Hin). pose proof (find_none _ _ Ef y Hin) as Hn. cbn in Hn.
        assert (str_eqb (al_anchor y) a = true) by (apply str_eqb_eq; exact Hy). congruence.
      * exfalso. apply (Hne x eq_refl).
  - destruct (load_node_add _ _) as [r1 l1] eqn:El. apply node_add_al in El. destruct El as [Hal Hne].
    destruct r1 as [[]|x|x|]; try (intros [= <- <-]; auto; fail).
    + unfold ret. intros [= <- <-]. rewrite Hal, app_nil_r. split; [reflexivity|discriminate].
    + exfalso. apply (Hne x eq_refl).
Qed.
Lemma end_al seq m l r l' : load_end seq m l = (r, l') -> aliases (l_parser l') = aliases (l_parser l) /\ (forall x, r <> Err x).
Proof.
  unfold load_end, bind, get. destruct (l_ctx l) as [|i c]; [intros [= <- <-]; split; [reflexivity|discriminate]|].
  destruct (node_at i (l_doc l)) as [n|]; [|intros [= <- <-]; split; [reflexivity|discriminate]].
  destruct (n_data n), seq; intros [= <- <-]; (split; [reflexivity|discriminate]).
Qed.
Lemma event_al e l r l' : load_event e l = (r, l') ->
  match r with
  | Ok _ => map al_key (aliases (l_parser l')) = map al_key (aliases (l_parser l)) ++ anchor_entry e
            /\ (forall a, Spec_Events.anchor_of (e_data e) = Some a -> ~ In a (map al_anchor (aliases (l_parser l))))
            /\ (forall a, e_data e = EvAlias a -> In a (map al_anchor (aliases (l_parser l))))
  | Err x => (exists a y, Spec_Events.anchor_of (e_data e) = Some a /\ In y (aliases (l_parser l)) /\ al_anchor y = a /\
               x = EComposer "found duplicate anchor; first occurrence" (al_mark y) "second occurrence" (e_start e)) \/
             (exists a, e_data e = EvAlias a /\ ~ In a (map al_anchor (aliases (l_parser l))) /\ x = EComposer "" mark0 "found undefined alias" (e_start e))
  | _ => True
  end.
Proof.
  unfold load_event, anchor_entry. destruct (e_data e) eqn:Ed; cbn [Spec_Events.anchor_of]; try (intros [= <- <-]; exact I).
  - intros [= <- <-]. rewrite app_nil_r. split; [reflexivity|]. split; discriminate.
  - unfold bind, load_alias, bind, get. destruct (find _ _) as [y|] eqn:Ef.
    + destruct (load_node_add _ _) as [r1 l1] eqn:El. apply node_add_al in El. destruct El as [Hal Hne].
      destruct r1 as [[]|x|x|]; try (intros [= <- <-]; auto; fail).
      * unfold ret. intros [= <- <-]. rewrite Hal, app_nil_r. split; [reflexivity|]. split; [discriminate|]. intros a [= <-].
        apply find_some in Ef. destruct Ef as [Hin Hy]. apply str_eqb_eq in Hy. rewrite <- Hy. apply in_map, Hin.
      * exfalso. apply (Hne x eq_refl).
    + intros [= <- <-]. right. exists anchor. split; [reflexivity|]. split; [|reflexivity]. intros Hin. apply in_map_iff in Hin. destruct Hin as (y & Hy & Hin).
      pose proof (find_none _ _ Ef y Hin) as Hn. cbn in Hn. assert (str_eqb (al_anchor y) anchor = true) by (apply str_eqb_eq; exact Hy). congruence.
  - unfold bind. destruct (load_push _ _ l) as [r1 l1] eqn:El. apply push_al in El. destruct r1 as [x|x|x|]; try (intros [= <- <-]; auto; fail).
    + unfold ret. intros [= <- <-]. destruct El as [H1 H2]. split; [destruct anchor; exact H1|]. split; [exact H2|discriminate].
  - unfold bind. destruct (load_push _ _ l) as [r1 l1] eqn:El. apply push_al in El. destruct r1 as [x|x|x|]; try (intros [= <- <-]; auto; fail).
    + unfold push_ctx, modify, ret. intros [= <- <-]. destruct El as [H1 H2]. split; [destruct anchor; exact H1|]. split; [exact H2|discriminate].
  - unfold bind. destruct (load_end _ _ l) as [r1 l1] eqn:El. apply end_al in El. destruct El as [Hal Hne]. destruct r1 as [x|x|x|]; try (intros [= <- <-]; auto; fail).
    + unfold ret. intros [= <- <-]. rewrite Hal, app_nil_r. split; [reflexivity|]. split; discriminate.
    + exfalso. apply (Hne x eq_refl).
  - unfold bind. destruct (load_push _ _ l) as [r1 l1] eqn:El. apply push_al in El. destruct r1 as [x|x|x|]; try (intros [= <- <-]; auto; fail).
    + unfold push_ctx, modify, ret. intros [= <- <-]. destruct El as [H1 H2]. split; [destruct anchor; exact H1|]. split; [exact H2|discriminate].
  - unfold bind. destruct (load_end _ _ l) as [r1 l1] eqn:El. apply end_al in El. destruct El as [Hal Hne]. destruct r1 as [x|x|x|]; try (intros [= <- <-]; auto; fail).
    + unfold ret. intros [= <- <-]. rewrite Hal, app_nil_r. split; [reflexivity|]. split; discriminate.
    + exfalso. apply (Hne x eq_refl).
Qed.

Definition entries (es : list event) : list (str * mark) := flat_map anchor_entry es.
Lemma entries_in es a m : In (a, m) (entries es) <-> exists e, In e es /\ Spec_Events.anchor_of (e_data e) = Some a /\ e_start e = m.
Proof.
  unfold entries. rewrite in_flat_map. unfold anchor_entry. split.
  - intros (e & He & Hin). exists e. destruct (Spec_Events.anchor_of (e_data e)); [|contradiction]. destruct Hin as [[= -> ->]|[]]. auto.
  - intros (e & He & Ha & Hm). exists e. rewrite Ha, Hm. split; [exact He|left; reflexivity].
Qed.
Lemma cev_al es e c r c' : map al_key (c_al c) = entries es -> cev e c = (r, c') ->
  match r with
  | Ok _ => map al_key (c_al c') = entries (es ++ [e])
            /\ (forall a, Spec_Events.anchor_of (e_data e) = Some a -> forall e', In e' es -> Spec_Events.anchor_of (e_data e') <> Some a)
            /\ (forall a, e_data e = EvAlias a -> exists e', In e' es /\ Spec_Events.anchor_of (e_data e') = Some a)
  | Err x => composer_error es e x
  | _ => True
  end.
Proof.
  intros Hal Hc. unfold cev in Hc. destruct (load_event e _) as [r1 l1] eqn:El. injection Hc as <- <-. apply event_al in El.
  unfold embed in El. cbn [l_parser set_aliases aliases c_al] in El.
  assert (Hin : forall a, In a (map al_anchor (c_al c)) <-> exists e', In e' es /\ Spec_Events.anchor_of (e_data e') = Some a).
  { intros a. assert (Hm : map al_anchor (c_al c) = map fst (map al_key (c_al c))) by (rewrite map_map; reflexivity). rewrite Hm, Hal, in_map_iff. split.
    - intros ([b m] & <- & H). apply entries_in in H. destruct H as (e' & H1 & H2 & _). exists e'. auto.
    - intros (e' & H1 & H2). exists (a, e_start e'). split; [reflexivity|]. apply entries_in. exists e'. auto. }
  destruct r1 as [o|x|x|]; auto.
  - destruct El as (H1 & H2 & H3). cbn [c_al]. split; [|split].
    + rewrite H1, Hal. unfold entries. rewrite flat_map_app. cbn. rewrite app_nil_r. reflexivity.
    + intros a Ha e' He' Hc. apply (H2 a Ha). apply Hin. eauto.
    + intros a Ha. apply Hin. apply H3, Ha.
  - destruct El as [(a & y & Ha & Hy & Hya & ->)|(a & Ha & Hn & ->)].
    + assert (Hk : In (al_key y) (entries es)) by (rewrite <- Hal; apply in_map, Hy). unfold al_key in Hk. apply entries_in in Hk.
      destruct Hk as (e' & H1 & H2 & H3). rewrite <- H3. eapply CE_anchor; [exact Ha|exact H1|congruence].
    + eapply CE_alias; [exact Ha|]. intros e' He' Hc. apply Hn, Hin. eauto.
Qed.
Lemma run_al es : forall c c', forall pre, map al_key (c_al c) = entries pre -> run es c = (Ok tt, c') -> map al_key (c_al c') = entries (pre ++ es).
Proof.
  induction es as [|e es IH]; intros c c' pre H; cbn [run]; [intros [= <-]; rewrite app_nil_r; exact H|].
  destruct (cev e c) as [[o|x|x|] c1] eqn:Ec; try discriminate. apply (cev_al _ _ _ _ _ H) in Ec. destruct Ec as [Ec _]. intros Hr.
  rewrite (IH _ _ _ Ec Hr), <- app_assoc. reflexivity.
Qed.
Definition anchor_names (es : list event) : list str := flat_map (fun e => Spec_Events.opt_list (Spec_Events.anchor_of (e_data e))) es.
Lemma run_proper es : forall c c' pre, map al_key (c_al c) = entries pre -> run es c = (Ok tt, c') ->
  anchors_used_properly pre -> anchors_used_properly (pre ++ es).
Proof.
  induction es as [|e es IH]; intros c c' pre H; cbn [run]; [intros _ Hp; rewrite app_nil_r; exact Hp|].
  destruct (cev e c) as [[o|x|x|] c1] eqn:Ec; try discriminate. apply (cev_al _ _ _ _ _ H) in Ec. destruct Ec as (Ec & E2 & E3). intros Hr [Hp1 Hp2].
  replace (pre ++ e :: es) with ((pre ++ [e]) ++ es) by (rewrite <- app_assoc; reflexivity). apply (IH _ _ _ Ec Hr). split.
  - rewrite flat_map_app. cbn [flat_map]. rewrite app_nil_r. destruct (Spec_Events.anchor_of (e_data e)) as [a|] eqn:Ea; cbn [Spec_Events.opt_list]; [|rewrite app_nil_r; exact Hp1].
    apply NoDup_app_cons; auto. intros Hin. apply in_flat_map in Hin. destruct Hin as (e' & He' & Hin). specialize (E2 a eq_refl e' He').
    destruct (Spec_Events.anchor_of (e_data e')); cbn in Hin; [destruct Hin as [->|[]]; congruence|contradiction].
  - intros l a e' r Hs Ha. destruct r as [|e'' r].
    + apply app_inj_tail in Hs. destruct Hs as [-> ->]. apply E3, Ha.
    + destruct (exists_last (l := e'' :: r)) as (r' & z & Hz); [discriminate|]. rewrite Hz in Hs.
      assert (Hs' : pre ++ [e] = (l ++ e' :: r') ++ [z]) by (rewrite Hs, <- app_assoc; reflexivity). apply app_inj_tail in Hs'. destruct Hs' as [Hs' _].
      eapply Hp2; eassumption.
Qed.

(** ** One call of [load] *)
Record LI (st : sst) (del : list token) (lo : mark) (g : gstate) (p : pst) : Prop := {
  li_pi : PI st del lo g p;
  li_al : aliases p = [];
  li_start : g = GStart -> stream_start_produced (sc p) = false;
  li_del : g <> GStart -> del <> [];
  li_g : match g with GDoc _ _ => False | _ => True end }.

Lemma started_del W del s : SInv W del s -> del <> [] -> stream_start_produced s = true.
Proof.
  intros I H. destruct (stream_start_produced s) eqn:E; [reflexivity|]. destruct (si_fresh _ _ _ I E) as (_ & _ & H0 & _). unfold all in H0.
  apply app_eq_nil in H0. destruct H0. contradiction.
Qed.
Lemma parse_of_next st del lo g p : PI st del lo g p -> g <> GEnd -> at_end p = false /\
  match parse p with
  | (Ok e, p') => parser_next p = (Ok (Some e), p') /\ PQ st (sc p) del lo g (rank (state p :: states p)) e p'
  | (Err x, p') => parser_next p = (Err x, p')
  | (Panic x, p') => parser_next p = (Panic x, p')
  | (Fuel, _) => False
  end.
Proof.
  intros H Hg. assert (Ha : at_end p = false).
  { rewrite (at_end_is_end _ _ _ _ _ H). destruct (is_end (state p)) eqn:E; [|reflexivity]. pose proof (is_end_g _ _ _ _ _ H E). contradiction. }
  split; [exact Ha|]. pose proof (next_ok _ _ _ _ _ H) as N. rewrite (next_parse p Ha) in *. destruct (parse p) as [[e|x|x|] p']; cbn in N; auto. split; [reflexivity|]. apply N.
Qed.

(** [es]: the events read by the call. *)
Definition step_ok st (p : pst) (r : res document) (p' : pst) (es : list event) : Prop :=
  match r with
  | Ok d => calls parser_next (length es) p = (okev es, p') /\
            ((exists del lo, LI st del lo GDocs p' /\ document_of es d /\ anchors_used_properly es) \/
             (exists del lo e, LI st del lo GEnd p' /\ es = [e] /\ e_data e = EvStreamEnd /\ d = no_document))
  | Err x => Forall no_de es /\
             ((exists p2, calls parser_next (S (length es)) p = (okev es ++ [Err x], p2)) \/
              (exists p2 ev, calls parser_next (S (length es)) p = (okev (es ++ [ev]), p2) /\ no_de ev /\ composer_error es ev x))
  | Panic x => Forall no_de es /\ exists p2, calls parser_next (S (length es)) p = (okev es ++ [Panic x], p2)
  | Fuel => False
  end.
Lemma calls1 {A} (m : M pst A) n p r p1 os q : m p = (r, p1) -> calls m n p1 = (os, q) -> calls m (S n) p = (r :: os, q).
Proof. intros H1 H2. cbn [calls]. rewrite H1, H2. reflexivity. Qed.
Lemma calls_aliases n : forall p os q, calls parser_next n p = (os, q) -> aliases q = aliases p.
Proof.
  induction n as [|n IH]; intros p os q; cbn [calls]; [intros [= _ <-]; reflexivity|].
  destruct (parser_next p) as [r p1] eqn:E. destruct (calls parser_next n p1) as [l p2] eqn:E2. intros [= _ <-]. rewrite (IH _ _ _ E2).
  unfold parser_next, bind, get in E. destruct (at_end p); [injection E as _ <-; reflexivity|]. pose proof (parse_aliases p) as Hp.
  destruct (parse p) as [[e|x|x|] p']; injection E as _ <-; exact Hp.
Qed.
Lemma okev_ok es : Forall succeeded (okev es).
Proof. induction es; constructor; [exact I|assumption]. Qed.
Lemma events_okev es : events_of (okev es) = es.
Proof. induction es as [|e es IH]; cbn; [reflexivity|]. f_equal. exact IH. Qed.
Lemma okev_app a b : okev (a ++ b) = okev a ++ okev b. Proof. apply map_app. Qed.
Lemma grun_doc_no_de es : forall ds fs g, grun (GDoc ds fs) (map e_data es) = Some g -> Forall no_de es -> exists fs', g = GDoc ds fs'.
Proof.
  induction es as [|e es IH]; intros ds fs g H Hn; cbn [map grun] in H; [injection H as <-; eauto|]. apply Forall_cons_iff in Hn. destruct Hn as [Hn Hns].
  destruct (gstep (GDoc ds fs) (e_data e)) as [g1|] eqn:E; [|discriminate]. apply gdoc_step in E. unfold no_de, is_de in Hn.
  destruct (e_data e); try discriminate; try contradiction; destruct E as (fs' & ->); eapply IH; eassumption.
Qed.
Lemma set_aliases_id a p : aliases p = a -> set_aliases a p = p.
Proof. intros <-. destruct p. reflexivity. Qed.

Definition end_doc (imp : bool) (m : mark) (l : lst) : lst :=
  set_l_doc (Mk_doc (d_nodes (l_doc l)) (d_version_directive (l_doc l)) (d_tag_directives (l_doc l)) (d_start_implicit (l_doc l)) imp (d_start (l_doc l)) m) l.
Lemma load_nodes_eq l : load_nodes l =
  match loopM (load_budget (l_parser l)) lbody tt l with
  | (Ok (imp, m), l') => (Ok tt, end_doc imp m l')
  | (Err x, l') => (Err x, l') | (Panic x, l') => (Panic x, l') | (Fuel, l') => (Fuel, l')
  end.
Proof. unfold load_nodes, bind at 1. fold lbody. destruct (loopM _ lbody tt l) as [[[]|x|x|] l']; reflexivity. Qed.

Lemma load_nodes_ok st del lo ds p d e0 p0 vd tds si : PI st del lo (GDoc ds [FRoot]) p -> aliases p = [] -> d_nodes d = [] -> del <> [] ->
  parser_next p0 = (Ok (Some e0), p) -> e_data e0 = EvDocumentStart vd tds si -> d_version_directive d = vd -> d_tag_directives d = tds -> d_start_implicit d = si -> d_start d = e_start e0 ->
  exists es, step_ok st p0 (match load_nodes (embed p (start_core d)) with (Ok _, l) => Ok (l_doc l) | (Err x, _) => Err x | (Panic x, _) => Panic x | (Fuel, _) => Fuel end)
     (match load_nodes (embed p (start_core d)) with (_, l) => delete_aliases (l_parser l) end) es.
Proof.
  intros Hp Hal Hd Hdel Hn0 Hd0 Hvd Htds Hsi Hst. rewrite load_nodes_eq.
  assert (Hmu : (mu_l p < load_budget (l_parser (embed p (start_core d))))%nat).
  { unfold embed, load_budget, mu_l. cbn [l_parser]. change (tok_budget (set_aliases _ p)) with (tok_budget p). pose proof (fuel_budget p).
    assert (rank (state p :: states p) <= 2)%nat; [|lia]. pose proof (pi_g _ _ _ _ _ Hp) as Hg. cbn [ds_of] in Hg.
    destruct (state p) eqn:Es; cbn [gof] in Hg; try (destruct (states p); discriminate);
     try (destruct (states p) as [|[] [|]]; try discriminate; cbn; lia);
     try (destruct (stack (states p)) as [[|]|]; discriminate);
     try (cbn [stack frs] in Hg; destruct (stack (states p)); discriminate);
     cbn [stack] in Hg; destruct (states p); discriminate. }
  pose proof (loop_out st _ del lo ds [FRoot] p (start_core d) Hp Hmu) as LO. set (res := loopM _ lbody tt (embed p (start_core d))) in *.
  assert (G : forall es os q n, calls parser_next n p = (okev es, q) -> Forall no_de es -> os = tt ->
     exists del' lo' fs, PI st del' lo' (GDoc ds fs) q /\ grun (GDoc ds [FRoot]) (map e_data es) = Some (GDoc ds fs)).
  { intros es os q n Hc He _. destruct (session_parser _ _ _ _ _ _ _ _ Hp Hc (okev_ok es)) as (tss & g' & lo' & S). rewrite events_okev in S.
    pose proof (ps_g _ _ _ _ _ _ _ _ _ _ _ S) as Hg. pose proof (ps_pi _ _ _ _ _ _ _ _ _ _ _ S) as Hpi.
    destruct (grun_doc_no_de _ _ _ _ Hg He) as (fs & ->). eauto. }
  assert (N0 : no_de e0) by (unfold no_de, is_de; rewrite Hd0; reflexivity).
  destruct LO as [es ev imp p' c' H1 H2 H3 H4|es x p' c' H1 H2 H3|es ev x p' c1 c' H1 H2 H3 H4|es x p' c' H1 H2|es ev x p' c1 c' H1 H2 H3 H4 H5].
  - exists (e0 :: es ++ [ev]). unfold end_doc, step_ok, embed. cbn [l_parser l_doc l_ctx set_l_doc].
    assert (Hal' : aliases p' = []) by (rewrite (calls_aliases _ _ _ _ H1); exact Hal).
    assert (Hp' : delete_aliases (set_aliases (c_al c') p') = p') by (unfold delete_aliases; rewrite <- (set_aliases_id [] p' Hal') at 2; reflexivity). rewrite Hp'.
    assert (Hc : calls parser_next (S (S (length es))) p0 = (okev (e0 :: es ++ [ev]), p')) by (apply (calls1 _ _ _ _ _ _ _ Hn0 H1)).
    split. { cbn [length]. rewrite app_length. cbn [length]. rewrite Nat.add_1_r. exact Hc. }
    left. destruct (session_parser _ _ _ _ _ _ _ _ Hp H1 (okev_ok _)) as (tss & g' & lo' & S). rewrite events_okev in S.
    pose proof (ps_g _ _ _ _ _ _ _ _ _ _ _ S) as Hg. pose proof (ps_pi _ _ _ _ _ _ _ _ _ _ _ S) as Hpi.
    rewrite map_app, grun_app in Hg. destruct (grun _ (map e_data es)) as [g1|] eqn:Eg; [|discriminate].
    destruct (grun_doc_no_de _ _ _ _ Eg H2) as (fs & ->). cbn [map grun] in Hg. rewrite H4 in Hg.
    assert (fs = [FDone] /\ g' = GDocs) as [-> ->].
    { destruct fs as [|[] [|]]; cbn in Hg; try discriminate. injection Hg as <-. auto. }
    exists (del ++ concat tss), lo'. split; [|split].
    + constructor; auto; [discriminate|]. intros _ Hx. apply app_eq_nil in Hx. destruct Hx. contradiction.
    + destruct (full_tree _ _ _ Eg H2) as (t & Ht). pose proof (run_tree t d Hd) as Hr. rewrite Ht, H3 in Hr.
      destruct (number [] 0 t) as [[[ns env] k]|x] eqn:En; [|destruct Hr; discriminate]. injection Hr as ->. cbn [c_doc].
      destruct e0 as [d0 s0 e0], ev as [d1 s1 e1]. cbn [e_data e_start e_end] in *. subst d0 d1. exists vd, tds, si, s0, e0, t, imp, s1, e1, env, k.
      split; [rewrite Ht; reflexivity|]. cbn [d_nodes set_d_nodes d_version_directive d_tag_directives d_start_implicit d_start]. split; [exact En|].
      rewrite Hvd, Htds, Hsi, Hst. reflexivity.
    + assert (Hpr : anchors_used_properly ([e0] ++ es)).
      { eapply (run_proper es (start_core d) c' [e0]); [|exact H3|].
        - cbn. unfold anchor_entry. rewrite Hd0. reflexivity.
        - split; [cbn; rewrite Hd0; constructor|]. intros l a e r Hs Ha. destruct l as [|? [|]]; [|discriminate|discriminate]. injection Hs as <- _. congruence. }
      destruct Hpr as [Hp1 Hp2]. split.
      * change (e0 :: es ++ [ev]) with (([e0] ++ es) ++ [ev]). rewrite flat_map_app. cbn [flat_map]. rewrite H4. cbn. rewrite app_nil_r. exact Hp1.
      * intros l a e r Hs Ha. change (e0 :: es ++ [ev]) with (([e0] ++ es) ++ [ev]) in Hs. destruct r as [|z r].
        { apply app_inj_tail in Hs. destruct Hs as [_ <-]. congruence. }
        destruct (exists_last (l := z :: r)) as (r' & y & Hz); [discriminate|]. rewrite Hz in Hs.
        assert (Hs' : ([e0] ++ es) ++ [ev] = (l ++ e :: r') ++ [y]) by (rewrite Hs, <- app_assoc; reflexivity). apply app_inj_tail in Hs'. destruct Hs' as [Hs' _].
        eapply Hp2; eassumption.
  - exists (e0 :: es). split; [constructor; assumption|]. left. exists p'. apply (calls1 _ _ _ _ _ _ _ Hn0 H1).
  - exists (e0 :: es). apply Forall_app in H2. destruct H2 as [H2 H2']. split; [constructor; assumption|]. right. exists p', ev. split; [apply (calls1 _ _ _ _ _ _ _ Hn0 H1)|]. split; [exact (Forall_inv H2')|].
    assert (Hal1 : map al_key (c_al c1) = entries ([e0] ++ es)).
    { eapply run_al; [|exact H3]. cbn. unfold anchor_entry. rewrite Hd0. reflexivity. }
    apply (cev_al _ _ _ _ _ Hal1 H4).
  - exists (e0 :: es). split; [constructor; assumption|]. exists p'. apply (calls1 _ _ _ _ _ _ _ Hn0 H1).
  - exfalso. destruct (G (es ++ [ev]) tt p' _ H1 H2 eq_refl) as (_ & _ & fs & _ & Hg). pose proof (run_no_panic _ _ _ _ d Hg H2 Hd) as Hr.
    rewrite run_app, H3 in Hr. cbn [run] in Hr. destruct (cev ev c1) as [[o|y|y|] c2]; cbn in *; subst x; auto.
Qed.

Lemma load_rest_ok st del lo p : LI st del lo GDocs p -> exists es, step_ok st p (fst (load_rest p)) (snd (load_rest p)) es.
Proof.
  intros [Hp Hal _ Hdel _]. specialize (Hdel ltac:(discriminate)). destruct (parse_of_next _ _ _ _ _ Hp ltac:(discriminate)) as [Ha N]. unfold load_rest.
  assert (Hse : stream_end_produced (sc p) = false). { unfold at_end in Ha. apply orb_false_iff in Ha. apply Ha. } rewrite Hse.
  pose proof (parse_aliases p) as Hpa. rewrite Hal in Hpa.
  destruct (parse p) as [[e|x|x|] p1] eqn:E; cbn [snd] in Hpa.
  - destruct N as (Hn & ts & g' & [X1 X2 X3 X4 X5 X6 X7 X8 X9]). 
    assert (Hdel' : del ++ ts <> []) by (intros Hx; apply app_eq_nil in Hx; destruct Hx; contradiction).
    cbn [gstep] in X3. destruct (e_data e) eqn:Ed; try discriminate; injection X3 as <-.
    + exists [e]. cbn [fst snd step_ok]. split; [cbn [length calls]; rewrite Hn; reflexivity|]. right. exists (del ++ ts), (e_start e), e. split; [|auto]. constructor; auto. discriminate.
    + unfold load_document. rewrite Ed. unfold bind, modify. cbn [l_doc set_l_doc document_new d_nodes d_end_implicit d_end l_parser l_ctx].
      destruct (load_nodes_ok st _ _ _ p1 (Mk_doc [] vd tds implicit false (e_start e) mark0) e p vd tds implicit X4 Hpa eq_refl Hdel' Hn Ed eq_refl eq_refl eq_refl eq_refl) as (es & H).
      exists es. unfold embed, start_core in H. cbn [c_al c_doc c_ctx] in H. rewrite (set_aliases_id [] p1 Hpa) in H.
      destruct (load_nodes _) as [[[]|x|x|] l]; cbn [finish fst snd] in *; exact H.
  - exists []. cbn [finish fst step_ok]. split; [constructor|]. left. exists p1. cbn [length calls]. rewrite N. reflexivity.
  - exists []. cbn [fst step_ok]. split; [constructor|]. exists p1. cbn [length calls]. rewrite N. reflexivity.
  - contradiction.
Qed.

Definition stepped st g p r p' : Prop :=
  match g with
  | GStart => (exists e0 en p1 es, e_data e0 = EvStreamStart en /\ parser_next p = (Ok (Some e0), p1) /\ step_ok st p1 r p' es)
              \/ match r with Err x => exists p2, parser_next p = (Err x, p2) | Panic x => exists p2, parser_next p = (Panic x, p2) | _ => False end
  | GDocs => exists es, step_ok st p r p' es
  | GEnd => r = Ok no_document /\ p' = p
  | _ => False
  end.
Lemma load_step st del lo g p : LI st del lo g p -> stepped st g p (fst (load p)) (snd (load p)).
Proof.
  intros H. pose proof H as [Hp Hal Hs Hdel Hg]. unfold load, stepped. destruct g as [| |ds fs|]; [| |contradiction|].
  - rewrite (Hs eq_refl). destruct (parse_of_next _ _ _ _ _ Hp ltac:(discriminate)) as [Ha N]. pose proof (parse_aliases p) as Hpa. rewrite Hal in Hpa.
    destruct (parse p) as [[e|x|x|] p1] eqn:E; cbn [snd] in Hpa.
    + destruct N as (Hn & ts & g' & [X1 X2 X3 X4 X5 X6 X7 X8 X9]). cbn [gstep] in X3. destruct (e_data e) eqn:Ed; try discriminate; injection X3 as <-.
      left. pose proof (Spec_Events.ex_stream _ _ _ X1) as (t & -> & _).
      assert (L : LI st (del ++ [t]) (e_start e) GDocs p1).
      { constructor; auto; [discriminate|]. intros _ Hx. apply app_eq_nil in Hx. destruct Hx. discriminate. }
      destruct (load_rest_ok _ _ _ _ L) as (es & Hes). exists e, enc, p1, es. auto.
    + right. exists p1. exact N.
    + right. exists p1. exact N.
    + contradiction.
  - rewrite (started_del _ _ _ (pi_inv _ _ _ _ _ Hp) (Hdel ltac:(discriminate))). apply (load_rest_ok _ _ _ _ H).
  - rewrite (started_del _ _ _ (pi_inv _ _ _ _ _ Hp) (Hdel ltac:(discriminate))). unfold load_rest.
    rewrite (pi_sep _ _ _ _ _ Hp), (g_end_is _ _ _ _ Hp). auto.
Qed.

(** ** Sessions of [load] *)
Lemma LI_start dbg e i : LI (scanner_start dbg e i) [] mark0 GStart (parser_start dbg e i).
Proof. constructor; [apply PI_start|reflexivity|reflexivity|congruence|exact I]. Qed.
Lemma calls_add {A} (m : M pst A) a b s : calls m (a + b) s = let '(l1, s1) := calls m a s in let '(l2, s2) := calls m b s1 in (l1 ++ l2, s2).
Proof.
  revert s. induction a as [|a IH]; intros s; cbn [calls Nat.add].
  - destruct (calls m b s). reflexivity.
  - destruct (m s) as [r s1]. rewrite IH. destruct (calls m a s1) as [l1 s2]. destruct (calls m b s2). reflexivity.
Qed.

(** After [n] successful loads: the events [es] have been read, and the state is between documents. *)
Lemma loads_ok st n : forall del lo g p ds p', LI st del lo g p -> g <> GStart -> calls load n p = (map Ok ds, p') ->
  exists es del' lo' g', calls parser_next (length es) p = (okev es, p') /\ LI st del' lo' g' p' /\ g' <> GStart /\
    match g with GEnd => es = [] /\ ds = repeat no_document n | _ => documents_from es ds end /\ Forall (fun d => exists g, documents_from g [d] /\ (d <> no_document -> document_of g d /\ anchors_used_properly g)) ds.
Proof.
  induction n as [|n IH]; intros del lo g p ds p' HL Hg; cbn [calls].
  - intros [= Hds <-]. destruct ds; [|discriminate]. exists [], del, lo, g. split; [reflexivity|]. split; [exact HL|]. split; [exact Hg|]. split; [|constructor].
    destruct g; [contradiction|constructor|constructor|auto].
  - pose proof (load_step _ _ _ _ _ HL) as S. destruct (load p) as [r p1] eqn:E1. cbn [fst snd] in S. destruct (calls load n p1) as [l p2] eqn:E2.
    intros [= Hds <-]. destruct ds as [|d ds]; [discriminate|]. cbn [map] in Hds. injection Hds as -> ->.
    destruct g as [| |ds0 fs|]; [contradiction| |destruct S|].
    + destruct S as (es & Hc & [(del1 & lo1 & HL1 & Hdoc & Hpr)|(del1 & lo1 & e & HL1 & -> & He & ->)]).
      * destruct (IH _ _ _ _ _ _ HL1 ltac:(discriminate) E2) as (es2 & del2 & lo2 & g2 & Hc2 & HL2 & Hg2 & Hm & Hf).
        exists (es ++ es2), del2, lo2, g2. split; [rewrite app_length, calls_add, Hc, Hc2, okev_app; reflexivity|]. split; [exact HL2|]. split; [exact Hg2|].
        split; [constructor; assumption|]. constructor; [|exact Hf]. exists es. split; [rewrite <- (app_nil_r es); repeat constructor; exact Hdoc|auto].
      * destruct (IH _ _ _ _ _ _ HL1 ltac:(discriminate) E2) as (es2 & del2 & lo2 & g2 & Hc2 & HL2 & Hg2 & (-> & Hds) & Hf).
        exists [e], del2, lo2, g2. cbn [length calls okev map] in Hc2. injection Hc2 as ->. split; [exact Hc|]. split; [exact HL2|]. split; [exact Hg2|].
        split; [rewrite Hds; apply (DF_end e n He)|]. constructor; [|exact Hf]. exists [e]. split; [apply (DF_end e 0 He)|congruence].
    + destruct S as [[= ->] ->]. destruct (IH _ _ _ _ _ _ HL ltac:(discriminate) E2) as (es2 & del2 & lo2 & g2 & Hc2 & HL2 & Hg2 & (-> & ->) & Hf).
      exists [], del2, lo2, g2. split; [exact Hc2|]. split; [exact HL2|]. split; [exact Hg2|]. split; [auto|]. constructor; [|exact Hf].
      exists [Mk_event EvStreamEnd mark0 mark0]. split; [apply (DF_end _ 0); reflexivity|congruence].
Qed.
