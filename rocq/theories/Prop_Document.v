(** Prop_Document.v -- C18, C19 and C20: what [Document::load] returns.

    The theorems are about sessions of [load] on a new parser and an arbitrary input stream (any
    bytes, chunks and I/O failures): [n] calls that succeeded, and the next one whatever its outcome.
    The events are those that [Iterator::next] of a new parser returns for the same input. *)
From Coq Require Import ZifyBool ZifyNat ZifyN.
From Verif Require Import Base Utf Chars State Reader Scanner Parser EState Emitter Document Api Wp ReaderFacts Spec_Tokens ScanFacts TokFacts FetchFacts FetchWp FetchLoop FlowFacts Spec_Scanner SessionFacts Spec_Parser ParserFacts ParserWalk ParserWalk2 ParserWalk3 ParserWalk4 ParserSession LoadAlias Spec_Document LoadFacts EventFacts LoadSession NumberFacts LoadBack.

Definition events_ok (es : list event) : list (res (option event)) := map (fun e => Ok (Some e)) es.

Lemma load_start_eq st p : LI st [] mark0 GStart p ->
  (exists e0 en p1 del lo, e_data e0 = EvStreamStart en /\ parser_next p = (Ok (Some e0), p1) /\ LI st del lo GDocs p1 /\ load p = load p1) \/
  (exists x p2, load p = (Err x, p2) /\ fst (parser_next p) = Err x) \/ (exists x p2, load p = (Panic x, p2) /\ fst (parser_next p) = Panic x).
Proof.
  intros H. pose proof H as [Hp Hal Hs Hdel Hg]. unfold load at 1 3 4. rewrite (Hs eq_refl).
  destruct (parse_of_next _ _ _ _ _ Hp ltac:(discriminate)) as [Ha N]. pose proof (parse_aliases p) as Hpa. rewrite Hal in Hpa.
  destruct (parse p) as [[e|x|x|] p1] eqn:E; cbn [snd] in Hpa.
  - left. destruct N as (Hn & ts & g' & [X1 X2 X3 X4 X5 X6 X7 X8 X9]). cbn [gstep] in X3. destruct (e_data e) eqn:Ed; try discriminate; injection X3 as <-.
    pose proof (Spec_Events.ex_stream _ _ _ X1) as (t & -> & _).
    assert (L : LI st ([] ++ [t]) (e_start e) GDocs p1) by (constructor; auto; discriminate).
    exists e, enc, p1, [t], (e_start e). split; [exact Ed|]. split; [exact Hn|]. split; [exact L|].
    unfold load. rewrite (started_del _ _ _ (pi_inv _ _ _ _ _ X4) ltac:(discriminate)). reflexivity.
  - right. left. exists x, (delete_aliases p1). rewrite N. auto.
  - right. right. exists x, p1. rewrite N. auto.
  - contradiction.
Qed.
Lemma loads_start dbg e i n ds p : calls load (S n) (parser_start dbg e i) = (map Ok ds, p) ->
  exists e0 en es del lo g, e_data e0 = EvStreamStart en /\
    calls parser_next (S (length es)) (parser_start dbg e i) = (events_ok (e0 :: es), p) /\
    LI (scanner_start dbg e i) del lo g p /\ g <> GStart /\ documents_from es ds /\
    Forall (fun d => exists g, documents_from g [d] /\ (d <> no_document -> document_of g d /\ anchors_used_properly g)) ds.
Proof.
  intros H. destruct (load_start_eq _ _ (LI_start dbg e i)) as [(e0 & en & p1 & del & lo & He0 & Hn & HL & Heq)|[(x & p2 & Hx & _)|(x & p2 & Hx & _)]].
  - assert (H' : calls load (S n) p1 = (map Ok ds, p)). { cbn [calls] in *. rewrite <- Heq. exact H. }
    destruct (loads_ok _ _ _ _ _ _ _ _ HL ltac:(discriminate) H') as (es & del' & lo' & g' & Hc & HL' & Hg' & Hd & Hf).
    exists e0, en, es, del', lo', g'. split; [exact He0|]. split; [|auto]. apply (calls1 _ _ _ _ _ _ _ Hn Hc).
  - cbn [calls] in H. rewrite Hx in H. destruct (calls load n p2). destruct ds; discriminate.
  - cbn [calls] in H. rewrite Hx in H. destruct (calls load n p2). destruct ds; discriminate.
Qed.

(** ** C20: successive loads are the documents of the event stream. *)
(** The parser is left where reading exactly the events of these documents leaves it. *)
Theorem C20_loads_follow_the_events : forall dbg e i n ds p,
  calls load (S n) (parser_start dbg e i) = (map Ok ds, p) ->
  exists e0 en es, e_data e0 = EvStreamStart en /\
    calls parser_next (S (length es)) (parser_start dbg e i) = (events_ok (e0 :: es), p) /\
    documents_from es ds.
Proof.
  intros dbg e i n ds p H. destruct (loads_start _ _ _ _ _ _ H) as (e0 & en & es & del & lo & g & H1 & H2 & _ & _ & H3 & _). exists e0, en, es. auto.
Qed.
(** What it means that a document is the one of some events: the i-th node is what the i-th
    node-beginning event describes, and walking the table from the root gives the tree of the events. *)
Theorem C20_node_table : forall es d, document_of es d ->
  Forall2 describes (node_starts es) (d_nodes d) /\
  exists d0 t d1, es = d0 :: events_of_tree t ++ [d1] /\ stands (d_nodes d) es t 1 /\
    (match e_data d0 with
     | EvDocumentStart vd tds si => d_version_directive d = vd /\ d_tag_directives d = tds /\ d_start_implicit d = si /\ d_start d = e_start d0
     | _ => False
     end) /\
    (match e_data d1 with EvDocumentEnd ei => d_end_implicit d = ei /\ d_end d = e_end d1 | _ => False end).
Proof.
  intros es d (vd & tds & si & s0 & e0 & t & ei & s1 & e1 & env & k & -> & Hn & Hd). split.
  - pose proof (number_describes _ _ _ _ _ _ Hn) as F. unfold node_starts in *. cbn [filter begins_node e_data]. rewrite filter_app. cbn [filter begins_node e_data]. rewrite app_nil_r. exact F.
  - exists (Mk_event (EvDocumentStart vd tds si) s0 e0), t, (Mk_event (EvDocumentEnd ei) s1 e1). split; [reflexivity|]. split; [apply (number_stands _ _ _ _ Hn); reflexivity|].
    cbn [e_data e_start e_end]. rewrite Hd. cbn. auto 10.
Qed.
(** A load that fails: either asking for the events fails in the same way, or the composer refuses
    the event [ev] of the document that is being read: [before] are the events of the documents loaded
    so far, [current] those of this document before [ev]. *)
Definition no_document_end (es : list event) : Prop := forall e b, In e es -> e_data e <> EvDocumentEnd b.
Lemma no_de_end es : Forall no_de es -> no_document_end es.
Proof. intros H e b Hin He. rewrite Forall_forall in H. specialize (H e Hin). unfold no_de, is_de in H. rewrite He in H. discriminate. Qed.
Theorem C20_failed_load : forall dbg e i n ds p x p',
  calls load n (parser_start dbg e i) = (map Ok ds, p) -> load p = (Err x, p') ->
  (exists es q, calls parser_next (S (length es)) (parser_start dbg e i) = (events_ok es ++ [Err x], q)) \/
  (exists e0 before current ev q, calls parser_next (S (length (e0 :: before ++ current))) (parser_start dbg e i) = (events_ok (e0 :: before ++ current ++ [ev]), q) /\
     documents_from before ds /\ no_document_end (current ++ [ev]) /\ composer_error current ev x).
Proof.
  intros dbg e i n ds p x p' H Hl. destruct n as [|n].
  - cbn [calls] in H. injection H as Hds <-. destruct (load_start_eq _ _ (LI_start dbg e i)) as [(e0 & en & p1 & del & lo & He0 & Hn & HL & Heq)|[(y & p2 & Hx & Hf)|(y & p2 & Hx & _)]].
    + rewrite Heq in Hl. pose proof (load_step _ _ _ _ _ HL) as S. rewrite Hl in S. destruct S as (es & Hnd & [(q & Hc)|(q & ev & Hc & Hev & Hce)]).
      * left. exists (e0 :: es), q. apply (calls1 _ _ _ _ _ _ _ Hn Hc).
      * right. exists e0, [], es, ev, q. split; [apply (calls1 _ _ _ _ _ _ _ Hn Hc)|]. split; [destruct ds; [constructor|discriminate]|]. split; [|exact Hce]. apply no_de_end, Forall_app. auto.
    + rewrite Hx in Hl. injection Hl as -> ->. left. exists []. cbn [length calls]. destruct (parser_next _) as [r q]. exists q. cbn in Hf. rewrite Hf. reflexivity.
    + congruence.
  - destruct (loads_start _ _ _ _ _ _ H) as (e0 & en & es0 & del & lo & g & H1 & H2 & HL & Hg & H3 & _). pose proof (load_step _ _ _ _ _ HL) as S. rewrite Hl in S.
    destruct g as [| |? ?|]; cbn [stepped fst snd] in S; [contradiction| |contradiction|destruct S; discriminate].
    destruct S as (es & Hnd & [(q & Hc)|(q & ev & Hc & Hev & Hce)]).
    + left. exists ((e0 :: es0) ++ es), q. rewrite app_length. cbn [length Nat.add]. rewrite <- Nat.add_succ_r, <- Nat.add_succ_l, calls_add, H2, Hc.
      unfold events_ok. rewrite map_app, <- app_assoc. reflexivity.
    + right. exists e0, es0, es, ev, q. split; [|split; [exact H3|split; [apply no_de_end, Forall_app; auto|exact Hce]]]. change (e0 :: es0 ++ es) with ((e0 :: es0) ++ es). rewrite app_length. cbn [length Nat.add]. rewrite <- Nat.add_succ_r, <- Nat.add_succ_l, calls_add, H2, Hc.
      unfold events_ok. change (e0 :: es0 ++ es ++ [ev]) with ((e0 :: es0) ++ es ++ [ev]). rewrite (map_app _ (e0 :: es0)). reflexivity.
Qed.
(** Conversely, whenever the events of some documents are delivered, these documents are loaded. *)
Theorem C20_events_are_loaded : forall dbg e i e0 es ds q,
  calls parser_next (S (length es)) (parser_start dbg e i) = (events_ok (e0 :: es), q) -> documents_from es ds ->
  fst (calls load (length ds) (parser_start dbg e i)) = map Ok ds.
Proof.
  intros dbg e i e0 es ds q H Hd. destruct ds as [|d ds]; [reflexivity|].
  destruct (load_start_eq _ _ (LI_start dbg e i)) as [(e0' & en & p1 & del & lo & He0 & Hn & HL & Heq)|[(y & p2 & Hx & Hf)|(y & p2 & Hx & Hf)]].
  - cbn [calls] in H. rewrite Hn in H. destruct (calls parser_next (length es) p1) as [l q1] eqn:E. injection H as _ -> _.
    pose proof (load_back _ _ _ Hd _ _ _ _ HL E) as R. cbn [length calls] in *. rewrite Heq. exact R.
  - exfalso. cbn [calls] in H. destruct (parser_next (parser_start dbg e i)) as [r p3]. cbn in Hf. subst r. destruct (calls parser_next (length es) p3). discriminate H.
  - exfalso. cbn [calls] in H. destruct (parser_next (parser_start dbg e i)) as [r p3]. cbn in Hf. subst r. destruct (calls parser_next (length es) p3). discriminate H.
Qed.
Print Assumptions C20_events_are_loaded.
Print Assumptions C20_loads_follow_the_events.
Print Assumptions C20_node_table.
Print Assumptions C20_failed_load.

(** ** C18: loaded documents are sound, and the loader itself never panics nor hangs. *)
Theorem C18_loaded_documents_are_sound : forall dbg e i n ds p d,
  calls load n (parser_start dbg e i) = (map Ok ds, p) -> In d ds ->
  d = no_document \/
  d_nodes d <> [] /\ Forall (sound_node (Z.of_nat (length (d_nodes d)))) (d_nodes d).
Proof.
  intros dbg e i n ds p d H Hin. destruct n as [|n]; [cbn in H; injection H as H _; destruct ds; [contradiction|discriminate]|].
  destruct (loads_start _ _ _ _ _ _ H) as (e0 & en & es0 & del & lo & g & _ & _ & _ & _ & H3 & _). clear H.
  induction H3 as [|gr d' es ds Hd _ IH|ev k He]; [contradiction| |].
  - destruct Hin as [->|Hin]; [|auto]. right. destruct Hd as (vd & tds & si & s0 & e1 & t & ei & s1 & e2 & env & k & _ & Hn & _).
    destruct (number_root _ _ _ _ Hn) as [_ Hne]. split; [exact Hne|].
    destruct (number_ok t [] 0%Z _ _ _ ltac:(lia) (Forall_nil _) Hn) as (_ & _ & Hs). exact Hs.
  - left. apply repeat_spec in Hin. exact Hin.
Qed.
Theorem C18_load_does_not_panic : forall dbg e i n ds p x p',
  calls load n (parser_start dbg e i) = (map Ok ds, p) -> load p = (Panic x, p') ->
  exists es q, calls parser_next (S (length es)) (parser_start dbg e i) = (events_ok es ++ [Panic x], q).
Proof.
  intros dbg e i n ds p x p' H Hl. destruct n as [|n].
  - cbn [calls] in H. injection H as _ <-. destruct (load_start_eq _ _ (LI_start dbg e i)) as [(e0 & en & p1 & del & lo & He0 & Hn & HL & Heq)|[(y & p2 & Hx & Hf)|(y & p2 & Hx & Hf)]].
    + rewrite Heq in Hl. pose proof (load_step _ _ _ _ _ HL) as S. rewrite Hl in S. destruct S as (es & _ & q & Hc).
      exists (e0 :: es), q. apply (calls1 _ _ _ _ _ _ _ Hn Hc).
    + congruence.
    + rewrite Hx in Hl. injection Hl as -> ->. exists []. cbn [length calls]. destruct (parser_next _) as [r q]. exists q. cbn in Hf. rewrite Hf. reflexivity.
  - destruct (loads_start _ _ _ _ _ _ H) as (e0 & en & es0 & del & lo & g & H1 & H2 & HL & Hg & H3 & _). pose proof (load_step _ _ _ _ _ HL) as S. rewrite Hl in S.
    destruct g as [| |? ?|]; cbn [stepped fst snd] in S; [contradiction| |contradiction|destruct S; discriminate].
    destruct S as (es & _ & q & Hc). exists ((e0 :: es0) ++ es), q. rewrite app_length. cbn [length Nat.add]. rewrite <- Nat.add_succ_r, <- Nat.add_succ_l, calls_add, H2, Hc.
    unfold events_ok. rewrite map_app, <- app_assoc. reflexivity.
Qed.
Theorem C18_load_returns : forall dbg e i n ds p,
  calls load n (parser_start dbg e i) = (map Ok ds, p) -> fst (load p) <> Fuel.
Proof.
  intros dbg e i n ds p H Hl. destruct n as [|n].
  - cbn [calls] in H. injection H as _ <-. destruct (load_start_eq _ _ (LI_start dbg e i)) as [(e0 & en & p1 & del & lo & He0 & Hn & HL & Heq)|[(y & p2 & Hx & Hf)|(y & p2 & Hx & Hf)]].
    + rewrite Heq in Hl. pose proof (load_step _ _ _ _ _ HL) as S. rewrite Hl in S. destruct S as (es & []).
    + rewrite Hx in Hl. discriminate.
    + rewrite Hx in Hl. discriminate.
  - destruct (loads_start _ _ _ _ _ _ H) as (e0 & en & es0 & del & lo & g & H1 & H2 & HL & Hg & H3 & _). pose proof (load_step _ _ _ _ _ HL) as S. rewrite Hl in S.
    destruct g as [| |? ?|]; cbn [stepped fst snd] in S; [contradiction|destruct S as (es & [])|contradiction|destruct S; discriminate].
Qed.
Print Assumptions C18_loaded_documents_are_sound.
Print Assumptions C18_load_does_not_panic.
Print Assumptions C18_load_returns.

(** ** C19: anchors and aliases. *)
(** Every loaded document comes from events of its own that use anchors properly: no anchor twice,
    and each alias after the node with that anchor; the alias stands for that node (by
    [C20_node_table], whose relation [stands] says so). *)
Theorem C19_anchors_of_loaded_documents : forall dbg e i n ds p d,
  calls load n (parser_start dbg e i) = (map Ok ds, p) -> In d ds -> d <> no_document ->
  exists g, document_of g d /\ anchors_used_properly g.
Proof.
  intros dbg e i n ds p d H Hin Hd. destruct n as [|n]; [cbn in H; injection H as H _; destruct ds; [contradiction|discriminate]|].
  destruct (loads_start _ _ _ _ _ _ H) as (e0 & en & es0 & del & lo & g & _ & _ & _ & _ & _ & Hf). rewrite Forall_forall in Hf.
  destruct (Hf d Hin) as (gr & _ & Hg). exists gr. auto.
Qed.
Lemma NoDup_app_remove_l {A} (a b : list A) : NoDup (a ++ b) -> NoDup b.
Proof. induction a as [|x a IH]; [auto|]. intros H. cbn in H. apply NoDup_cons_iff in H. apply IH, H. Qed.
(** Which node that is, is then determined by the anchor. *)
Theorem C19_target_is_unique : forall es a k k', anchors_used_properly es -> carries es a k -> carries es a k' -> k = k'.
Proof.
  intros es a k k' [Hn _] (e & Hk & He & Ha) (e' & Hk' & He' & Ha').
  assert (Hs : flat_map (fun e => Spec_Events.opt_list (Spec_Events.anchor_of (e_data e))) es = flat_map (fun e => Spec_Events.opt_list (Spec_Events.anchor_of (e_data e))) (node_starts es)).
  { clear. induction es as [|e es IH]; [reflexivity|]. cbn [flat_map node_starts filter]. unfold node_starts in IH. destruct (begins_node e) eqn:Eb; cbn [flat_map]; rewrite IH; [reflexivity|].
    unfold begins_node in Eb. destruct (e_data e); try discriminate; reflexivity. }
  rewrite Hs in Hn. clear Hs.
  assert (forall l i j, NoDup (flat_map (fun e => Spec_Events.opt_list (Spec_Events.anchor_of (e_data e))) l) -> nth_error l i = Some e -> nth_error l j = Some e' -> i = j) as Hij.
  { clear -Ha Ha'. induction l as [|x l IH]; intros [|i] [|j] Hn Hi Hj; try discriminate; cbn in *; auto.
    - exfalso. injection Hi as ->. rewrite Ha in Hn. cbn in Hn. apply NoDup_cons_iff in Hn. apply (proj1 Hn). apply in_flat_map. exists e'. split; [eapply nth_error_In, Hj|rewrite Ha'; left; reflexivity].
    - exfalso. injection Hj as ->. rewrite Ha' in Hn. cbn in Hn. apply NoDup_cons_iff in Hn. apply (proj1 Hn). apply in_flat_map. exists e. split; [eapply nth_error_In, Hi|rewrite Ha; left; reflexivity].
    - f_equal. apply (IH i j); auto. apply NoDup_app_remove_l in Hn. exact Hn. }
  specialize (Hij _ _ _ Hn He He'). lia.
Qed.
(** A composer error is reported for such an event of the current document ... *)
Theorem C19_composer_errors : forall dbg e i n ds p x p' c m1 pr m2,
  calls load n (parser_start dbg e i) = (map Ok ds, p) -> load p = (Err x, p') -> x = EComposer c m1 pr m2 ->
  exists e0 before current ev q, calls parser_next (S (length (e0 :: before ++ current))) (parser_start dbg e i) = (events_ok (e0 :: before ++ current ++ [ev]), q) /\
     documents_from before ds /\ no_document_end (current ++ [ev]) /\ composer_error current ev x.
Proof.
  intros dbg e i n ds p x p' c m1 pr m2 H Hl ->. destruct (C20_failed_load _ _ _ _ _ _ _ _ H Hl) as [(es & q & Hc)|Hc]; [|exact Hc]. exfalso.
  change (S (length es)) with (1 + length es)%nat in Hc. rewrite Nat.add_comm in Hc. rewrite calls_add in Hc.
  destruct (calls parser_next (length es) (parser_start dbg e i)) as [os q1] eqn:E. cbn [calls] in Hc. destruct (parser_next q1) as [r q2] eqn:E2. injection Hc as Hc _.
  apply app_inj_tail in Hc. destruct Hc as [-> ->].
  destruct (session_parser _ _ _ _ _ _ _ _ (PI_start dbg e i) E (okev_ok es)) as (tss & g' & lo' & S).
  pose proof (next_ok _ _ _ _ _ (ps_pi _ _ _ _ _ _ _ _ _ _ _ S)) as N. rewrite E2 in N. cbn in N. destruct N as [_ [_ _ _ Hk]]. exact Hk.
Qed.
(** ... and only if the document does not use its anchors properly, whatever follows: anchors of
    earlier documents do not matter. *)
Theorem C19_refused_only_if_improper : forall es ev x rest, composer_error es ev x -> ~ anchors_used_properly (es ++ ev :: rest).
Proof.
  intros es ev x rest H [Hn Ha]. destruct H as [a He Hno|a e He Hin Hea].
  - destruct (Ha es a ev rest eq_refl He) as (e' & Hin & He'). apply (Hno e' Hin He').
  - apply in_split in Hin. destruct Hin as (l & r & ->). rewrite <- app_assoc in Hn. cbn [app] in Hn. rewrite flat_map_app in Hn. apply NoDup_app_remove_l in Hn.
    cbn [flat_map] in Hn. rewrite Hea in Hn. cbn [Spec_Events.opt_list app] in Hn. apply NoDup_cons_iff in Hn. apply (proj1 Hn). rewrite flat_map_app. apply in_or_app. right.
    cbn [flat_map]. rewrite He. left. reflexivity.
Qed.
Print Assumptions C19_anchors_of_loaded_documents.
Print Assumptions C19_target_is_unique.
Print Assumptions C19_composer_errors.
Print Assumptions C19_refused_only_if_improper.

(** ** The hypotheses are met. *)
Definition dnl : list byte := [10].
Definition doc_demo_source : source :=
  slice_source (lit "a: &x [1, *x, {k: v}]" ++ dnl ++ lit "b: &y !t z" ++ dnl ++ lit "? *y" ++ dnl ++ lit "--- &x" ++ dnl ++ lit "- 'q'" ++ dnl ++ lit "- *x" ++ dnl).
Example doc_demo :
  match calls load 4 (parser_start true EncAny doc_demo_source) with
  | ([Ok d1; Ok d2; Ok d3; Ok d4], p) =>
      map n_data (d_nodes d1) =
        [Document.NMapping [(2, 3); (8, 9); (9, 10)]%Z MapBlock; Document.NScalar (lit "a") SPlain; Document.NSequence [4; 3; 5]%Z SeqFlow; Document.NScalar (lit "1") SPlain;
         Document.NMapping [(6, 7)]%Z MapFlow; Document.NScalar (lit "k") SPlain; Document.NScalar (lit "v") SPlain; Document.NScalar (lit "b") SPlain; Document.NScalar (lit "z") SPlain;
         Document.NScalar [] SPlain] /\
      map n_data (d_nodes d2) = [Document.NSequence [2; 1]%Z SeqBlock; Document.NScalar (lit "q") SSingle] /\ d3 = no_document /\ d4 = no_document
  | _ => False
  end.
Proof. vm_compute. repeat split; reflexivity. Qed.
(** An anchor of the first document is unknown in the second one; a duplicate anchor. *)
Example doc_demo_errors :
  match calls load 1 (parser_start true EncAny (slice_source (lit "&x a" ++ dnl ++ lit "--- [*x]" ++ dnl))) with
  | ([Ok d1], p) => fst (load p) = Err (EComposer "" mark0 "found undefined alias" (Mk_mark 10 1 5))
  | _ => False
  end /\
  fst (load (parser_start true EncAny (slice_source (lit "[&x a, &x b]" ++ dnl)))) =
    Err (EComposer "found duplicate anchor; first occurrence" (Mk_mark 1 0 1) "second occurrence" (Mk_mark 7 0 7)).
Proof. vm_compute. split; reflexivity. Qed.
