(** LoadBack.v -- the events determine what is loaded. *)
From Coq Require Import ZifyBool ZifyNat ZifyN Lia.
From Verif Require Import Base Utf Chars State Reader Scanner Parser EState Emitter Document Api Wp ReaderFacts Spec_Tokens ScanFacts TokFacts FetchFacts FetchWp FetchLoop FlowFacts Spec_Scanner SessionFacts Spec_Parser ParserFacts ParserWalk ParserWalk2 ParserWalk3 ParserWalk4 ParserSession LoadAlias Spec_Events EventFacts Spec_Document LoadFacts NumberFacts LoadSession.

Lemma prefix_calls {A} (m : M pst A) a b p l1 q1 l2 q2 : calls m a p = (l1, q1) -> calls m b p = (l2, q2) -> (a <= b)%nat -> exists l3, l2 = l1 ++ l3.
Proof.
  intros H1 H2 H. replace b with (a + (b - a))%nat in H2 by lia. rewrite calls_add, H1 in H2. destruct (calls m (b - a) q1) as [l3 q3]. injection H2 as <- _. eauto.
Qed.
Lemma calls_length {A} (m : M pst A) n : forall p l q, calls m n p = (l, q) -> length l = n.
Proof.
  induction n as [|n IH]; intros p l q; cbn [calls]; [intros [= <- _]; reflexivity|]. destruct (m p) as [r p1]. destruct (calls m n p1) as [l1 q1] eqn:E. intros [= <- _]. cbn. f_equal. eapply IH, E.
Qed.
Lemma tree_no_de t : Forall no_de (events_of_tree t).
Proof.
  assert (H : forall n t, (length (events_of_tree t) <= n)%nat -> Forall no_de (events_of_tree t)); [|eapply H; reflexivity]. clear t.
  induction n as [|n IH]; intros t Hn; [destruct t; cbn in Hn; lia|].
  destruct t as [| |an tg im st s e l s2 e2|an tg im st s e l s2 e2]; cbn [events_of_tree] in *; try (constructor; [reflexivity|constructor]).
  - constructor; [reflexivity|]. apply Forall_app. split; [|constructor; [reflexivity|constructor]]. cbn [length] in Hn. rewrite app_length in Hn. cbn [length] in Hn.
    assert (Hl : (length (flat_map events_of_tree l) <= n)%nat) by lia. clear Hn. induction l as [|t l IHl]; [constructor|]. cbn [flat_map] in *. rewrite app_length in Hl. apply Forall_app. split; [apply IH; lia|apply IHl; lia].
  - constructor; [reflexivity|]. apply Forall_app. split; [|constructor; [reflexivity|constructor]]. cbn [length] in Hn. rewrite app_length in Hn. cbn [length] in Hn.
    assert (Hl : (length (flat_map (fun '(k, v) => events_of_tree k ++ events_of_tree v) l) <= n)%nat) by lia. clear Hn. induction l as [|[t u] l IHl]; [constructor|]. cbn [flat_map] in *. rewrite !app_length in Hl.
    apply Forall_app. split; [apply Forall_app; split; apply IH; lia|apply IHl; lia].
Qed.
Lemma split_no_de (a b : list event) : Forall no_de a -> Forall no_de b -> forall x y u v, is_de x = true -> is_de y = true -> a ++ x :: u = b ++ y :: v -> a = b /\ x = y /\ u = v.
Proof.
  intros Ha. revert b. unfold no_de. induction Ha as [|d a Hd Ha IH]; intros b Hb x y u v Hx Hy H; destruct Hb as [|d' b Hd' Hb]; cbn in H.
  - injection H as -> ->. auto.
  - injection H as -> _. congruence.
  - injection H as -> _. congruence.
  - injection H as -> H. destruct (IH _ Hb _ _ _ _ Hx Hy H) as (-> & -> & ->). auto.
Qed.
(** A list without document end is a proper prefix of a list with one. *)
Lemma short_prefix (a b : list event) x r r' : Forall no_de a -> is_de x = true -> a ++ r = b ++ x :: r' -> exists c, b = a ++ c.
Proof.
  intros Ha Hx. revert b. induction Ha as [|d a Hd Ha IH]; intros b H; [exists b; reflexivity|]. destruct b as [|d' b]; cbn in H.
  - injection H as -> _. unfold no_de in Hd. congruence.
  - injection H as -> H. destruct (IH b H) as (c & ->). exists c. reflexivity.
Qed.
Lemma document_shape g d : document_of g d -> exists g0 x, g = g0 ++ [x] /\ g0 <> [] /\ Forall no_de g0 /\ is_de x = true.
Proof.
  intros (vd & tds & si & s0 & e0 & t & ei & s1 & e1 & env & k & -> & _). exists (Mk_event (EvDocumentStart vd tds si) s0 e0 :: events_of_tree t), (Mk_event (EvDocumentEnd ei) s1 e1).
  split; [reflexivity|]. split; [discriminate|]. split; [constructor; [reflexivity|apply tree_no_de]|reflexivity].
Qed.
Lemma document_same g d d' : document_of g d -> document_of g d' -> d = d'.
Proof.
  intros (vd & tds & si & s0 & e0 & t & ei & s1 & e1 & env & k & -> & Hn & Hd) (vd' & tds' & si' & s0' & e0' & t' & ei' & s1' & e1' & env' & k' & E & Hn' & Hd').
  injection E as -> -> -> -> -> E. apply app_inj_tail in E. destruct E as [E [= -> -> ->]].
  pose proof (run_tree t no_document eq_refl) as R. pose proof (run_tree t' no_document eq_refl) as R'. rewrite Hn in R. rewrite Hn', <- E, R in R'. injection R' as _ R'.
  rewrite Hd, Hd', R'. reflexivity.
Qed.
Lemma document_unique g d g' d' r r' : document_of g d -> document_of g' d' -> g ++ r = g' ++ r' -> g = g' /\ d = d' /\ r = r'.
Proof.
  intros H H' E. destruct (document_shape _ _ H) as (a & x & -> & _ & Ha & Hx). destruct (document_shape _ _ H') as (b & y & -> & _ & Hb & Hy).
  rewrite <- !app_assoc in E. destruct (split_no_de _ _ Ha Hb _ _ _ _ Hx Hy E) as (-> & -> & ->). split; [reflexivity|]. split; [eapply document_same; eassumption|reflexivity].
Qed.
Lemma document_proper g d : document_of g d -> anchors_used_properly g.
Proof.
  intros (vd & tds & si & s0 & e0 & t & ei & s1 & e1 & env & k & -> & Hn & _). pose proof (run_tree t no_document eq_refl) as R. rewrite Hn in R.
  set (x := Mk_event (EvDocumentStart vd tds si) s0 e0). set (y := Mk_event (EvDocumentEnd ei) s1 e1).
  assert (Hpr : anchors_used_properly ([x] ++ events_of_tree t)).
  { eapply (run_proper (events_of_tree t) (start_core no_document) _ [x]); [reflexivity|exact R|].
    split; [cbn; constructor|]. intros l a e r Hs Ha. destruct l as [|? [|]]; [|discriminate|discriminate]. injection Hs as <- _. discriminate Ha. }
  destruct Hpr as [Hp1 Hp2]. change (x :: events_of_tree t ++ [y]) with (([x] ++ events_of_tree t) ++ [y]). split.
  - rewrite flat_map_app. cbn [flat_map]. replace (opt_list (anchor_of (e_data y))) with (@nil str) by reflexivity. cbn [app]. rewrite app_nil_r. exact Hp1.
  - intros l a e r Hs Ha. destruct r as [|z r].
    { apply app_inj_tail in Hs. destruct Hs as [_ <-]. discriminate Ha. }
    destruct (exists_last (l := z :: r)) as (r' & w & Hz); [discriminate|]. rewrite Hz in Hs.
    assert (Hs' : ([x] ++ events_of_tree t) ++ [y] = (l ++ e :: r') ++ [w]) by (rewrite Hs, <- app_assoc; reflexivity). apply app_inj_tail in Hs'. destruct Hs' as [Hs' _].
    eapply Hp2; eassumption.
Qed.
Lemma refused es ev x rest : composer_error es ev x -> ~ anchors_used_properly (es ++ ev :: rest).
Proof.
  intros H [Hn Ha]. destruct H as [a He Hno|a e He Hin Hea].
  - destruct (Ha es a ev rest eq_refl He) as (e' & Hin & He'). apply (Hno e' Hin He').
  - apply in_split in Hin. destruct Hin as (l & r & ->). rewrite <- app_assoc in Hn. cbn [app] in Hn. rewrite flat_map_app in Hn.
    assert (N : forall A (u v : list A), NoDup (u ++ v) -> NoDup v) by (induction u as [|z u IHu]; [auto|intros v Q; cbn in Q; apply NoDup_cons_iff in Q; apply IHu, Q]). apply N in Hn.
    cbn [flat_map] in Hn. rewrite Hea in Hn. cbn [opt_list app] in Hn. apply NoDup_cons_iff in Hn. apply (proj1 Hn). rewrite flat_map_app. apply in_or_app. right.
    cbn [flat_map]. rewrite He. left. reflexivity.
Qed.
Lemma okev_inj a b : okev a = okev b -> a = b.
Proof. intros H. rewrite <- (events_okev a), <- (events_okev b), H. reflexivity. Qed.
Lemma okev_prefix (a b : list event) l : okev b = okev a ++ l -> exists c, b = a ++ c /\ l = okev c.
Proof.
  revert b. induction a as [|x a IH]; intros b H; [exists b; auto|]. destruct b as [|y b]; [discriminate|]. cbn in H. injection H as -> H. destruct (IH _ H) as (c & -> & ->). exists c. auto.
Qed.
Lemma ended_loads st n : forall del lo p, LI st del lo GEnd p -> fst (calls load n p) = map Ok (repeat no_document n).
Proof.
  induction n as [|n IH]; intros del lo p HL; [reflexivity|]. pose proof (load_step _ _ _ _ _ HL) as S. cbn [calls repeat map]. destruct (load p) as [r p1] eqn:E. destruct S as [S1 S2]. cbn [fst snd] in S1, S2. subst r p1.
  specialize (IH _ _ _ HL). destruct (calls load n p). cbn [fst] in *. rewrite IH. reflexivity.
Qed.
Lemma calls_split (a b : list event) p q : calls parser_next (length (a ++ b)) p = (okev (a ++ b), q) -> exists p1, calls parser_next (length a) p = (okev a, p1) /\ calls parser_next (length b) p1 = (okev b, q).
Proof.
  rewrite app_length, calls_add, okev_app. destruct (calls parser_next (length a) p) as [l1 p1] eqn:E1. destruct (calls parser_next (length b) p1) as [l2 p2] eqn:E2. intros [= H <-].
  pose proof (calls_length _ _ _ _ _ E1) as L. assert (L' : length l1 = length (okev a)) by (unfold okev; rewrite map_length; exact L).
  assert (Q : l1 = okev a /\ l2 = okev b).
  { clear L E1 E2. revert H L'. generalize (okev a). induction l1 as [|x l1 IH]; intros [|y l3] H L'; try discriminate L'; cbn [app] in H; [auto|].
    injection H as -> H. injection L' as L'. destruct (IH _ H L') as [-> E]. auto. }
  destruct Q as [-> ->]. exists p1. auto.
Qed.
Lemma comparable (a b : list event) p q q' : calls parser_next (length a) p = (okev a, q) -> calls parser_next (length b) p = (okev b, q') ->
  (exists c, b = a ++ c) \/ (exists c, a = b ++ c).
Proof.
  intros Ha Hb. assert (Hp : (length a <= length b)%nat \/ (length b <= length a)%nat) by lia. destruct Hp as [Hp|Hp]; [left|right].
  - destruct (prefix_calls _ _ _ _ _ _ _ _ Ha Hb Hp) as (l3 & E3). apply okev_prefix in E3. destruct E3 as (c & -> & _). eauto.
  - destruct (prefix_calls _ _ _ _ _ _ _ _ Hb Ha Hp) as (l3 & E3). apply okev_prefix in E3. destruct E3 as (c & -> & _). eauto.
Qed.
(** No failure before the end of a document whose events are all delivered. *)
Lemma no_stop es1 r p2 g0 x es p q : calls parser_next (S (length es1)) p = (okev es1 ++ [r], p2) -> match r with Ok (Some _) => False | _ => True end -> Forall no_de es1 ->
  is_de x = true -> calls parser_next (length (g0 ++ x :: es)) p = (okev (g0 ++ x :: es), q) -> False.
Proof.
  intros Hc1 Hr Hn Hx Hc.
  assert (Hc1' : exists q3, calls parser_next (length es1) p = (okev es1, q3)).
  { replace (S (length es1)) with (length es1 + 1)%nat in Hc1 by lia. rewrite calls_add in Hc1. destruct (calls parser_next (length es1) p) as [l4 q4] eqn:E4. exists q4. f_equal.
    destruct (calls parser_next 1 q4) as [l5 q5] eqn:E5. pose proof (calls_length _ _ _ _ _ E5) as L5. destruct l5 as [|z [|]]; try discriminate L5. injection Hc1 as Hc1 _. apply app_inj_tail in Hc1. apply Hc1. }
  destruct Hc1' as (q3 & Hc1').
  assert (Hpre : exists c, g0 = es1 ++ c).
  { destruct (comparable _ _ _ _ _ Hc1' Hc) as [(c & E)|(c & E)]; [apply (short_prefix _ _ _ _ _ Hn Hx (eq_sym E))|].
    exfalso. rewrite E in Hn. apply Forall_app in Hn. destruct Hn as [Hn _]. apply Forall_app in Hn. destruct Hn as [_ Hn]. apply Forall_inv in Hn. unfold no_de in Hn. congruence. }
  destruct Hpre as (c & ->). destruct (prefix_calls _ _ _ _ _ _ _ _ Hc1 Hc) as (l3 & E3); [rewrite !app_length; cbn; lia|]. rewrite <- (app_assoc (okev es1)) in E3. apply okev_prefix in E3. destruct E3 as (c' & _ & E3). destruct c' as [|z c']; [discriminate E3|]. cbn in E3. injection E3 as -> _. exact Hr.
Qed.
Lemma load_back st es ds : documents_from es ds -> forall del lo p q, LI st del lo GDocs p -> calls parser_next (length es) p = (okev es, q) ->
  fst (calls load (length ds) p) = map Ok ds.
Proof.
  induction 1 as [|g d es ds Hd Hes IH|e n He]; intros del lo p q HL Hc; [reflexivity| |].
  - pose proof (load_step _ _ _ _ _ HL) as S. destruct (document_shape _ _ Hd) as (g0 & x & -> & Hg0 & Hnd & Hx). cbn [length calls map]. destruct (load p) as [r p1] eqn:E. cbn [stepped fst snd] in S. destruct S as (es1 & S).
    pose proof Hc as Hc'. rewrite <- app_assoc in Hc'. cbn [app] in Hc'.
    destruct r as [d'|y|y|]; cbn [step_ok] in S; [| | |contradiction].
    + destruct S as (Hc1 & S).
      assert (Hpre : exists a b, (g0 ++ [x]) ++ es ++ a = es1 ++ b).
      { destruct (comparable _ _ _ _ _ Hc Hc1) as [(c & E3)|(c & E3)]; [exists c, []|exists [], c]; rewrite app_nil_r; [rewrite E3, <- !app_assoc; reflexivity|exact E3]. }
      destruct Hpre as (a & b & Hpre). destruct S as [(del1 & lo1 & HL1 & Hdoc & _)|(del1 & lo1 & e1 & HL1 & -> & He1 & _)].
      * destruct (document_unique _ _ _ _ _ _ Hd Hdoc Hpre) as (<- & <- & _).
        destruct (calls_split _ _ _ _ Hc) as (p1' & Hc2 & Hc3). rewrite Hc1 in Hc2. injection Hc2 as <-.
        specialize (IH _ _ _ _ HL1 Hc3). destruct (calls load (length ds) p1). cbn [fst] in *. rewrite IH. reflexivity.
      * exfalso. destruct Hd as (vd & tds & si & s0 & e0 & t & ei & s1 & e2 & env & k & Eg & _). destruct g0 as [|z g0]; [contradiction|]. injection Hpre as -> _. injection Eg as -> _. discriminate He1.
    + exfalso. destruct S as (Hn1 & [(p2 & Hc1)|(p2 & ev & Hc1 & Hev & Hce)]); [exact (no_stop _ (Err y) _ _ _ _ _ _ Hc1 I Hn1 Hx Hc')|].
      assert (Hn2 : Forall no_de (es1 ++ [ev])) by (apply Forall_app; auto).
      assert (Hc2 : calls parser_next (length (es1 ++ [ev])) p = (okev (es1 ++ [ev]), p2)) by (rewrite app_length, Nat.add_1_r; exact Hc1).
      assert (Hpre : exists c, g0 = (es1 ++ [ev]) ++ c).
      { destruct (comparable _ _ _ _ _ Hc2 Hc') as [(c & E3)|(c & E3)]; [apply (short_prefix _ _ _ _ _ Hn2 Hx (eq_sym E3))|].
        exfalso. rewrite E3 in Hn2. apply Forall_app in Hn2. destruct Hn2 as [Hn2 _]. apply Forall_app in Hn2. destruct Hn2 as [_ Hn2]. apply Forall_inv in Hn2. unfold no_de in Hn2. congruence. }
      destruct Hpre as (c & ->). pose proof (document_proper _ _ Hd) as Hpr. rewrite <- !app_assoc in Hpr. exact (refused _ _ _ _ Hce Hpr).
    + exfalso. destruct S as (Hn1 & p2 & Hc1). exact (no_stop _ (Panic y) _ _ _ _ _ _ Hc1 I Hn1 Hx Hc').
  - assert (Hl : exists p1 del1, load p = (Ok no_document, p1) /\ LI st del1 (e_start e) GEnd p1).
    { pose proof HL as [Hp Hal _ Hdel _]. specialize (Hdel ltac:(discriminate)). destruct (parse_of_next _ _ _ _ _ Hp ltac:(discriminate)) as [Ha N]. unfold load. rewrite (started_del _ _ _ (pi_inv _ _ _ _ _ Hp) Hdel). unfold load_rest.
      assert (Hse : stream_end_produced (sc p) = false). { unfold at_end in Ha. apply orb_false_iff in Ha. apply Ha. } rewrite Hse.
      pose proof (parse_aliases p) as Hpa. rewrite Hal in Hpa. cbn [length calls] in Hc. destruct (parser_next p) as [r0 q0] eqn:En. injection Hc as Hr0 _. subst r0.
      destruct (parse p) as [[e'|x|x|] p1] eqn:E; cbn [snd] in Hpa; [|try discriminate N; destruct N..].
      destruct N as (Hn & ts & g' & [X1 X2 X3 X4 X5 X6 X7 X8 X9]). injection Hn as <- _. rewrite He in *. cbn [gstep] in X3. injection X3 as <-.
      exists p1, (del ++ ts). split; [reflexivity|]. constructor; auto; [discriminate|]. intros _ Hx. apply app_eq_nil in Hx. destruct Hx. contradiction. }
    destruct Hl as (p1 & del1 & Hl & HL1). rewrite repeat_length. cbn [calls repeat map]. rewrite Hl. pose proof (ended_loads st n _ _ _ HL1) as R. destruct (calls load n p1). cbn [fst] in *. rewrite R. reflexivity.
Qed.
