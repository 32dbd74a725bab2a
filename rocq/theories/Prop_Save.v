(** Prop_Save.v -- C43: documents saved in canonical mode are loaded again.

    [save] is a sequence of calls of [Document::dump] followed by [Emitter::close], with any settings
    (in canonical mode), any fault schedule of the output handler, and any documents, shared and
    cyclic ones included as far as [dump] can write them (C23).  The bytes may come back to a parser in
    any chunks, with any interruptions.  What [Document::load] then returns is, document by document,
    the same graph of nodes, renumbered. *)
From Coq Require Import Lia ZifyBool ZifyNat ZifyN Bool.
From Verif Require Import Base Utf Chars State Reader Scanner Parser ScanFacts EState Emitter Document Api Spec_Scanner Spec_Reader Spec_Parser Spec_Events EventFacts Spec_Document Spec_Dump LoadSession Prop_Document DumpFacts DumpTree
  Spec_Emitter Spec_EmitNames Prop_Emitter EmitSession EmitIo Prop_EmitGrammar Spec_Canonical Prop_Canonical Spec_Save SaveFacts SaveLoad SaveRun Prop_Dump.
Open Scope N_scope.

(** ** The events *)
Lemma digits fuel : forall n acc, Forall name_char acc -> Forall name_char (dec_go fuel n acc).
Proof.
  induction fuel as [|f IH]; intros n acc H; cbn [dec_go]; [exact H|]. destruct (n <? 10) eqn:E.
  - constructor; [left; lia|exact H].
  - apply IH. constructor; [|exact H]. left. pose proof (N.mod_lt n 10 ltac:(discriminate)). lia.
Qed.
Lemma anchor_valid i : valid_name (generate_anchor i).
Proof.
  unfold generate_anchor, pad3. split; [discriminate|]. apply Forall_app. split; [repeat apply Forall_cons; try apply Forall_nil; unfold name_char; cbn; lia|].
  apply Forall_app. split; [|apply digits; constructor]. apply Forall_forall. intros c Hc. apply repeat_spec in Hc. subst. left. lia.
Qed.
Lemma nm_valid d k a : nm d k = Some a -> valid_name a.
Proof. unfold nm, Spec_Dump.anchor_names. match goal with |- context [number_in ?a ?b ?c] => destruct (number_in a b c) end; [|discriminate]. intros [= <-]. apply anchor_valid. Qed.
Definition fine (p : document * walk) : Prop := storable (fst p) /\ walked p.
Lemma good_valid d w x : storable d -> In x (wev (d_nodes d) (nm d) w) -> wgood (d_nodes d) (nm d) x -> valid_event true x /\ plain_data x.
Proof.
  intros (_ & _ & Hs & _) _ Hg. rewrite Forall_forall in Hs. unfold valid_event, valid_names.
  destruct x as [| | | |a|a t v pi qi st|a t im st| |a t im st|]; cbn [wgood] in Hg; try contradiction; try (repeat split; exact I).
  - destruct Hg as (k & Hk). split; [split; [split; [exact (nm_valid _ _ _ Hk)|exact I]|split; exact I]|exact I].
  - destruct Hg as ((k & ->) & n & Hin & <- & Hd). specialize (Hs n Hin). unfold storable_node in Hs. rewrite Hd in Hs. destruct Hs as [Ht Hv]. cbn [anchor_in written_tag orb all valid_directives valid_flags plain_data].
    destruct (n_tag n) as [t|]; [|destruct Ht]. destruct Ht as (T1 & T2 & _). split; [|split; assumption]. split; [|split; exact I]. split; [destruct (nm d k) eqn:E; [exact (nm_valid _ _ _ E)|exact I]|exact T1].
  - destruct Hg as ((k & ->) & n & ks & Hin & <- & Hd). specialize (Hs n Hin). unfold storable_node in Hs. rewrite Hd in Hs. destruct Hs as [Ht Hv]. cbn [anchor_in written_tag orb all valid_directives valid_flags plain_data].
    destruct (n_tag n) as [t|]; [destruct Ht as (T1 & T2 & _)|]; (split; [split; [split; [destruct (nm d k) eqn:E; [exact (nm_valid _ _ _ E)|exact I]|first [exact T1|exact I]]|split; exact I]|first [exact T2|exact I]]).
  - destruct Hg as ((k & ->) & n & ks & Hin & <- & Hd). specialize (Hs n Hin). unfold storable_node in Hs. rewrite Hd in Hs. destruct Hs as [Ht Hv]. cbn [anchor_in written_tag orb all valid_directives valid_flags plain_data].
    destruct (n_tag n) as [t|]; [destruct Ht as (T1 & T2 & _)|]; (split; [split; [split; [destruct (nm d k) eqn:E; [exact (nm_valid _ _ _ E)|exact I]|first [exact T1|exact I]]|split; exact I]|first [exact T2|exact I]]).
Qed.
Lemma walk_good d w : walked (d, w) -> Forall (wgood (d_nodes d) (nm d)) (wev (d_nodes d) (nm d) w).
Proof. intros (_ & (seen & W) & _). exact (proj1 (wev_good _ _) _ _ _ W). Qed.
Lemma evs_valid l : Forall fine l -> Forall (fun x => valid_event true x /\ plain_data x) (all_evs l).
Proof.
  induction 1 as [|[d w] l [Hs Hw] _ IH]; [apply Forall_cons; [repeat split|constructor]|]. cbn [fst] in Hs. cbn [all_evs]. apply Forall_app. split; [|exact IH].
  pose proof Hs as (_ & _ & _ & V1 & V2 & V3 & V4 & _). apply Forall_cons; [split; [split; [split; exact I|split; [split; [exact V1|split; assumption]|exact I]]|exact V4]|].
  apply Forall_app. split; [|apply Forall_cons; [repeat split|constructor]]. pose proof (walk_good _ _ Hw) as G. rewrite Forall_forall in *. intros x Hx. eapply good_valid; eauto.
Qed.
Lemma evs_documents l : Forall walked l -> exists docs, documents_events docs /\ all_evs l = docs ++ [EvStreamEnd].
Proof.
  induction 1 as [|[d w] l Hw _ (docs & Hd & E)]; [exists []; split; [constructor|reflexivity]|]. cbn [all_evs]. rewrite E. unfold doc_evs.
  exists (EvDocumentStart (d_version_directive d) (d_tag_directives d) (d_start_implicit d) :: wev (d_nodes d) (nm d) w ++ EvDocumentEnd (d_end_implicit d) :: docs). split; [|cbn [app]; rewrite <- !app_assoc; reflexivity].
  constructor; [|exact Hd]. pose proof (walked_named _ _ Hw) as Hn. destruct Hw as (_ & (seen & W) & _). exact (proj1 (wev_grammar _ _) _ _ _ W Hn).
Qed.
Lemma evs_length l : Forall walked l -> (length (all_evs l) <= volume (map fst l) + 1)%nat.
Proof.
  induction 1 as [|[d w] l Hw _ IH]; [reflexivity|]. cbn [all_evs map fst volume fold_right]. unfold volume in IH. rewrite app_length. unfold doc_evs. cbn [length]. rewrite app_length. cbn [length].
  destruct Hw as (_ & (seen & W) & _). cbn [fst snd] in W. pose proof (proj1 (wev_length (d_nodes d) (nm d)) _ _ _ W) as L. cbn [wsum] in L.
  destruct (proj1 (walk_seen (d_nodes d)) _ _ _ W ltac:(split; constructor)) as ([S1 S2] & _). pose proof (wsum_all (d_nodes d) (nm d) seen S1 S2). lia.
Qed.
(** Tags: the directives in force are those of the document. *)
Lemma in_force_plain ds l : Forall (fun x => match x with EvDocumentStart _ _ _ => False | _ => True end) l -> in_force ds l = ds.
Proof. induction 1 as [|x l Hx _ IH]; [reflexivity|]. destruct x; try contradiction; exact IH. Qed.
Lemma app_cut {A} (a b : list A) x c d : a ++ b = c ++ x :: d -> (exists e, a = c ++ x :: e /\ d = e ++ b) \/ (exists e, c = a ++ e /\ b = e ++ x :: d).
Proof.
  revert c. induction a as [|y a IH]; intros c H; [right; exists c; auto|]. destruct c as [|z c]; cbn in H.
  - injection H as -> H. left. exists a. auto.
  - injection H as -> H. destruct (IH c H) as [(e & -> & ->)|(e & -> & E)]; [left|right]; exists e; auto.
Qed.
Lemma no_start d w x : wgood (d_nodes d) (nm d) x -> w = x -> match w with EvDocumentStart _ _ _ => False | _ => True end.
Proof. intros H ->. destruct x; try exact I. exact H. Qed.
Lemma evs_abbreviable l : Forall fine l -> abbreviable (all_evs l).
Proof.
  intros F before x after t td y E Ht Hu Et. revert before E Hu. generalize (@nil tag_directive). induction F as [|[d w] l [Hs Hw] F IH]; intros ds before E Hu.
  - destruct before as [|? [|]]; [|discriminate|discriminate]. injection E as <- _. discriminate Ht.
  - cbn [all_evs] in E. pose proof (walk_good _ _ Hw) as Hg. cbn [fst] in Hs.
    assert (Hns : Forall (fun x => match x with EvDocumentStart _ _ _ => False | _ => True end) (wev (d_nodes d) (nm d) w)) by (eapply Forall_impl; [|exact Hg]; intros z Hz; destruct z; try exact I; exact Hz).
    apply app_cut in E. destruct E as [(e & E & _)|(e & -> & E)].
    + unfold doc_evs in E. destruct before as [|b before]; [injection E as <- _; discriminate Ht|]. injection E as <- E. apply app_cut in E. destruct E as [(e' & E & _)|(e' & -> & E)].
      * cbn [in_force] in Hu. rewrite E in Hg, Hns. apply Forall_app in Hns. destruct Hns as [Hns _]. rewrite (in_force_plain _ _ Hns) in Hu. apply Forall_app in Hg. destruct Hg as [_ Hg]. apply Forall_inv in Hg.
        destruct Hs as (_ & _ & Hs & _). rewrite Forall_forall in Hs.
        assert (Hn : exists n, In n (d_nodes d) /\ n_tag n = Some t).
        { destruct x as [| | | | |a t0 v pi qi st|a t0 im st| |a t0 im st|]; try discriminate Ht; cbn [tag_of_event] in Ht; subst t0; cbn [wgood] in Hg; [destruct Hg as (_ & n & H1 & H2 & _)|destruct Hg as (_ & n & ks & H1 & H2 & _)|destruct Hg as (_ & n & ks & H1 & H2 & _)]; eauto. }
        destruct Hn as (n & Hn1 & Hn2). specialize (Hs n Hn1). unfold storable_node in Hs. rewrite Hn2 in Hs. destruct Hs as [(_ & _ & Hs) _]. exact (Hs td y Hu Et).
      * destruct e' as [|? [|]]; [|discriminate|discriminate]. injection E as <- _. discriminate Ht.
    + rewrite in_force_app in Hu. exact (IH _ e E Hu).
Qed.

(** ** Reading them *)
Lemma reread_body b : forall r, Forall (fun x => match x with EvDocumentEnd _ => False | _ => True end) b -> reread (b ++ r) = map reread_one b ++ reread r.
Proof. induction b as [|x b IH]; intros r H; [reflexivity|]. pose proof (Forall_inv H) as Hx. cbn [app map]. rewrite <- (IH r (Forall_inv_tail H)). destruct x; try contradiction; reflexivity. Qed.
Lemma reread_doc d w r : walked (d, w) ->
  reread (doc_evs d w ++ r) = EvDocumentStart (d_version_directive d) (d_tag_directives d) false :: map reread_one (wev (d_nodes d) (nm d) w) ++ EvDocumentEnd (d_end_implicit d && negb (directives_next r)) :: reread r.
Proof.
  intros Hw. unfold doc_evs. cbn [app reread reread_one]. f_equal. rewrite <- app_assoc, reread_body; [reflexivity|].
  eapply Forall_impl; [|exact (walk_good _ _ Hw)]. intros z Hz. destruct z; try exact I. exact Hz.
Qed.
Lemma next_directives l : directives_next (all_evs l) = match map fst l with d2 :: _ => has_directives d2 | [] => false end.
Proof. destruct l as [|[d w] l]; [reflexivity|]. cbn [all_evs map fst doc_evs app directives_next]. unfold has_directives. destruct (d_version_directive d), (d_tag_directives d); reflexivity. Qed.
Lemma load_evs l : Forall fine l -> forall es, map e_data es = reread (all_evs l) ->
  exists ds', saved_as (map fst l) ds' /\ forall n, documents_from es (ds' ++ repeat no_document (S n)).
Proof.
  induction 1 as [|[d w] l [Hs Hw] _ IH]; intros es E.
  - destruct es as [|e [|]]; try discriminate E. cbn in E. injection E as E. exists []. split; [constructor|]. intros n. apply (DF_end e n E).
  - cbn [all_evs] in E. rewrite (reread_doc _ _ _ Hw) in E. change (?a :: ?b ++ ?c :: ?r) with ((a :: b) ++ [c] ++ r) in E. rewrite app_assoc in E. apply map_eq_app in E. destruct E as (g & es2 & -> & Eg & E2).
    destruct (IH es2 E2) as (ds' & Hsa & Hdf). pose proof (walked_named _ _ Hw) as Hn. destruct Hw as (_ & (seen & W) & G & _). cbn [fst snd] in *.
    destruct (walk_document (d_nodes d) (nm d) (nm_inj d) w seen _ _ _ _ g W G Hn Eg) as (d' & Hd & Hg & H1 & H2 & H3 & H4).
    exists (d' :: ds'). split; [|intros n; cbn [app]; constructor; [exact Hd|apply Hdf]]. cbn [map fst]. constructor; auto. rewrite H4, next_directives. reflexivity.
Qed.

Theorem C43_saved_documents_are_loaded : forall st plan ds,
  st_canonical st = true -> effective_encoding (st_encoding st) EncAny = Utf8 ->
  ds <> [] -> Forall storable ds -> N.of_nat (volume ds) < 2147483647 ->
  exists r s', save ds (new_emitter st plan) = (r, s') /\
  (r = Ok tt \/ exists k, r = Err (EIo (OtherIo k)) /\ In k (write_failures (new_emitter st plan))) /\
  (r = Ok tt -> forall dbg e i, delivers i (output s') -> e = Utf8 \/ e = EncAny /\ first_read_ok i ->
    exists ds', saved_as ds ds' /\
    forall k, fst (calls load (length ds + k) (parser_start dbg e i)) = map Ok ds' ++ repeat (Ok no_document) k).
Proof.
  intros st plan ds Hcan Henc Hne Hs Hvol.
  assert (Hw : exists l, map fst l = ds /\ Forall fine l).
  { clear Hne Hvol. induction Hs as [|d ds Hd _ (l & <- & F)]; [exists []; auto|]. pose proof Hd as (D1 & D2 & _ & _ & _ & _ & _ & D3).
    destruct (C23_every_document_can_be_walked d (conj D1 D2)) as (w & seen & W & G & _). exists ((d, w) :: l). split; [reflexivity|]. constructor; [|exact F]. split; [exact Hd|].
    split; [split; assumption|]. split; [exists seen; exact W|]. split; [exact G|]. intros k Hk. exact (D3 w seen k W G Hk). }
  destruct Hw as (l & <- & F). assert (Fw : Forall walked l) by (eapply Forall_impl; [|exact F]; intros p Hp; apply Hp).
  assert (Hl : l <> []) by (intros ->; apply Hne; reflexivity).
  set (cl := map (fun d => CEmit (event_new d)) (all_evs l)).
  assert (Hem : map e_data (emitted cl) = all_evs l) by (unfold cl; clear; induction (all_evs l) as [|x r IH]; [reflexivity|]; cbn; f_equal; exact IH).
  pose proof (evs_valid l F) as Hval. pose proof (evs_length l Fw) as Hlen.
  assert (Hq : forall P, Forall P (all_evs l) -> Forall (fun e => P (e_data e)) (emitted cl)) by (intros P HP; rewrite <- Hem in HP; exact (proj1 (Forall_map _ _ _) HP)).
  destruct (C40_canonical_round_trip st plan EncAny cl Hcan Henc) as (r & s1 & R1 & R2 & R3).
  - rewrite Hem. destruct (evs_documents l Fw) as (docs & Hd & ->). exists EncAny, docs. auto.
  - rewrite Hem. destruct l as [|[d w] l0]; [contradiction|discriminate].
  - apply (Hq (valid_event true)). eapply Forall_impl; [|exact Hval]. intros x Hx. apply Hx.
  - apply (Hq plain_data). eapply Forall_impl; [|exact Hval]. intros x Hx. apply Hx.
  - rewrite Hem. apply evs_abbreviable, F.
  - rewrite <- (map_length e_data), Hem. lia.
  - destruct (new_flags st plan) as (N1 & N2 & N3). pose proof (save_new l _ Fw Hl N1 N2 N3) as Hsave. rewrite emit_all_calls in Hsave. cbn [map] in Hsave. fold cl in Hsave. change (run_calls (CEmit (event_new (EvStreamStart EncAny)) :: cl)) with (Spec_Emitter.session EncAny cl) in Hsave. rewrite R1 in Hsave.
    destruct (save (map fst l) (new_emitter st plan)) as [r2 s2]. unfold result in Hsave. cbn [fst snd] in Hsave. injection Hsave as -> Hwr.
    exists r, s2. split; [reflexivity|]. split; [exact R2|]. intros Hr dbg e i Hi He.
    assert (Ho : output s2 = output s1) by (unfold output; rewrite Hwr; reflexivity). rewrite Ho in Hi.
    destruct (R3 Hr dbg e i Hi He) as (es & Ees & Hcalls). rewrite Hem in Ees. destruct es as [|e0 es]; [discriminate|]. cbn [map] in Ees. injection Ees as _ Ees.
    destruct (load_evs l F es Ees) as (ds' & Hsa & Hdf). exists ds'. split; [exact Hsa|]. intros k.
    specialize (Hcalls 0%nat). cbn [repeat] in Hcalls. rewrite app_nil_r, Nat.add_0_r in Hcalls.
    destruct (calls parser_next (length (e0 :: es)) (parser_start dbg e i)) as [os q] eqn:Eq. cbn [fst] in Hcalls. subst os.
    pose proof (C20_events_are_loaded dbg e i e0 es _ q Eq (Hdf k)) as Hload. rewrite app_length, repeat_length in Hload.
    assert (Hdl : length ds' = length (map fst l)) by (clear -Hsa; induction Hsa; cbn; congruence).
    replace (length ds' + S k)%nat with ((length (map fst l) + k) + 1)%nat in Hload by lia. rewrite LoadSession.calls_add in Hload.
    destruct (calls load (length (map fst l) + k) (parser_start dbg e i)) as [os q1]. cbn [fst]. destruct (calls load 1 q1) as [os1 q2] eqn:E1. cbn [fst] in Hload.
    cbn [calls] in E1. destruct (load q1) as [r1 q3]. injection E1 as <- _.
    replace (S k) with (k + 1)%nat in Hload by lia. rewrite repeat_app in Hload. cbn [repeat] in Hload. rewrite map_app, map_app, app_assoc in Hload. apply app_inj_tail in Hload. destruct Hload as [-> _].
    f_equal. clear. induction k; [reflexivity|]. cbn. f_equal. exact IHk.
Qed.
Print Assumptions C43_saved_documents_are_loaded.

(** ** A concrete case.  The first document is cyclic: the third item of the root is the root's second
    item, which refers to itself; it also has directives, and a node that nothing refers to.  The
    second is a mapping whose tags are the default ones. *)
Lemma walks_unique nodes :
  (forall seen w s, walks nodes seen w s -> forall w' s', walks nodes seen w' s' -> goes_to w = goes_to w' -> w = w' /\ s = s') /\
  (forall seen l s, walks_list nodes seen l s -> forall l' s', walks_list nodes seen l' s' -> map goes_to l = map goes_to l' -> l = l' /\ s = s') /\
  (forall seen l s, walks_pairs nodes seen l s -> forall l' s', walks_pairs nodes seen l' s' ->
     map (fun '(x, y) => (goes_to x, goes_to y)) l = map (fun '(x, y) => (goes_to x, goes_to y)) l' -> l = l' /\ s = s').
Proof.
  apply (walks_mut nodes
   (fun seen w s _ => forall w' s', walks nodes seen w' s' -> goes_to w = goes_to w' -> w = w' /\ s = s')
   (fun seen l s _ => forall l' s', walks_list nodes seen l' s' -> map goes_to l = map goes_to l' -> l = l' /\ s = s')
   (fun seen l s _ => forall l' s', walks_pairs nodes seen l' s' -> map (fun '(x, y) => (goes_to x, goes_to y)) l = map (fun '(x, y) => (goes_to x, goes_to y)) l' -> l = l' /\ s = s')).
  - intros seen k Hk w' s' W E. inversion W; subst; cbn in *; subst; try contradiction. auto.
  - intros seen k n v st Hk Hn Hd w' s' W E. inversion W; subst; cbn in *; subst; try contradiction; auto; congruence.
  - intros seen k n l st s Hk Hn Hd Hl IH w' s' W E. inversion W; subst; cbn in *; subst; try contradiction; try congruence.
    destruct (IH l0 s') as [-> ->]; auto. congruence.
  - intros seen k n l st s Hk Hn Hd Hl IH w' s' W E. inversion W; subst; cbn in *; subst; try contradiction; try congruence.
    destruct (IH l0 s') as [-> ->]; auto. congruence.
  - intros seen l' s' W E. inversion W; subst; [auto|discriminate].
  - intros seen w s1 l s2 H1 I1 H2 I2 l' s' W E. inversion W; subst; [discriminate|]. cbn in E. injection E as E1 E2.
    destruct (I1 _ _ H E1) as [-> ->]. destruct (I2 _ _ H0 E2) as [-> ->]. auto.
  - intros seen l' s' W E. inversion W; subst; [auto|discriminate].
  - intros seen x s1 y s2 l s3 H1 I1 H2 I2 H3 I3 l' s' W E. inversion W; subst; [discriminate|]. cbn in E. injection E as E1 E2 E3.
    destruct (I1 _ _ H E1) as [-> ->]. destruct (I2 _ _ H0 E2) as [-> ->]. destruct (I3 _ _ H4 E3) as [-> ->]. auto.
Qed.
Definition nd (d : node_data) (t : str) : node := Mk_node d (Some t) mark0 mark0.
Definition demo_cyclic : document :=
  Mk_doc [nd (Document.NSequence [2; 3; 3] SeqBlock)%Z SEQ_TAG; nd (Document.NScalar (lit "a: " ++ [233; 10]) SPlain) (lit "tag:e,2000:k");
          nd (Document.NSequence [3] SeqAny)%Z SEQ_TAG; nd (Document.NScalar [] SAny) STR_TAG]
    (Some (Mk_vd 1 1)) [Mk_td (lit "!e!") (lit "tag:e,2000:")] true true mark0 mark0.
Definition demo_second : document :=
  Mk_doc [nd (Document.NMapping [(2, 3)] MapBlock)%Z MAP_TAG; nd (Document.NScalar (lit "k") SSingle) STR_TAG; nd (Document.NScalar [] SLiteral) STR_TAG] None [] true true mark0 mark0.
Ltac demo_text := repeat first [apply Forall_nil|apply Forall_cons]; try (cbn; lia).
Ltac demo_tag := split; [discriminate|split; [unfold ascii_text; demo_text|]].
Lemma known_prefix tds t : forallb (fun td => match strip (td_prefix td) t with None => true | Some x => forallb (fun c => negb ((c =? 44) || (c =? 91) || (c =? 93))) x end) (tds ++ default_tag_directives) = true ->
  forall td x, usable tds td -> t = td_prefix td ++ x -> ~ In 44 x /\ ~ In 91 x /\ ~ In 93 x.
Proof.
  intros H td x Hu ->. rewrite forallb_forall in H. assert (Hi : In td (tds ++ default_tag_directives)).
  { apply in_or_app. destruct Hu as [Hu|(Hu & _)]; [left; exact Hu|right; exact Hu]. }
  specialize (H td Hi). rewrite strip_app in H. rewrite forallb_forall in H. repeat split; intros Hc; specialize (H _ Hc); discriminate H.
Qed.
Ltac demo_dir := first [exact I|reflexivity].
Example demo_storable : Forall storable [demo_cyclic; demo_second] /\ N.of_nat (volume [demo_cyclic; demo_second]) < 2147483647.
Proof.
  split; [|vm_compute; reflexivity]. apply Forall_cons; [|apply Forall_cons; [|apply Forall_nil]]; (split; [discriminate|split; [|split; [|split; [|split; [|split; [|split]]]]]]).
  - repeat apply Forall_cons; try apply Forall_nil; cbn; repeat apply Forall_cons; try apply Forall_nil; try exact I; lia.
  - repeat apply Forall_cons; try apply Forall_nil; (split; [cbn [n_tag nd]; split; [discriminate|split; [unfold ascii_text; demo_text|apply known_prefix; reflexivity]]|cbn [n_data nd]; first [exact I|demo_text]]).
  - split; [reflexivity|left; reflexivity].
  - apply Forall_cons; [|apply Forall_nil]. split; [|discriminate]. right. exists (lit "e"). split; [reflexivity|]. apply Forall_cons; [unfold name_char; cbn; lia|apply Forall_nil].
  - apply NoDup_cons; [intros []|apply NoDup_nil].
  - apply Forall_cons; [|apply Forall_nil]. unfold ascii_text. demo_text.
  - intros w seen k W G Hk. destruct (proj1 (walks_unique (d_nodes demo_cyclic)) [] (WkSequence 1 [WkScalar 2; WkSequence 3 [WkRef 3]; WkRef 3])%Z [3; 2; 1]%Z) with (w' := w) (s' := seen) as [E _]; [|exact W|rewrite G; reflexivity|].
    { eapply Wk_sequence; [intros []|reflexivity|reflexivity|]. eapply WL_cons; [eapply Wk_scalar; [cbn; lia|reflexivity|reflexivity]|].
      eapply WL_cons; [eapply Wk_sequence; [cbn; lia|reflexivity|reflexivity|eapply WL_cons; [apply Wk_ref; left; reflexivity|apply WL_nil]]|]. eapply WL_cons; [apply Wk_ref; left; reflexivity|apply WL_nil]. }
    subst w. cbn in Hk. destruct Hk as [<-|[<-|[]]]; vm_compute; lia.
  - repeat apply Forall_cons; try apply Forall_nil; cbn; repeat apply Forall_cons; try apply Forall_nil; try exact I; lia.
  - repeat apply Forall_cons; try apply Forall_nil; (split; [cbn [n_tag nd]; split; [discriminate|split; [unfold ascii_text; demo_text|apply known_prefix; reflexivity]]|cbn [n_data nd]; first [exact I|demo_text]]).
  - exact I.
  - apply Forall_nil.
  - apply NoDup_nil.
  - apply Forall_nil.
  - intros w seen k W G Hk. destruct (proj1 (walks_unique (d_nodes demo_second)) [] (WkMapping 1 [(WkScalar 2, WkScalar 3)])%Z [3; 2; 1]%Z) with (w' := w) (s' := seen) as [E _]; [|exact W|rewrite G; reflexivity|].
    { eapply Wk_mapping; [intros []|reflexivity|reflexivity|]. eapply WP_cons; [eapply Wk_scalar; [cbn; lia|reflexivity|reflexivity]|eapply Wk_scalar; [cbn; lia|reflexivity|reflexivity]|apply WP_nil]. }
    subst w. destruct Hk.
Qed.
Definition demo_saved : list byte := output (snd (save [demo_cyclic; demo_second] (new_emitter demo_st []))).
Example demo_save_load :
  fst (save [demo_cyclic; demo_second] (new_emitter demo_st [])) = Ok tt /\
  map (fun r => match r with Ok d => (map (fun n => (n_data n, n_tag n)) (d_nodes d), d_end_implicit d) | _ => ([], false) end)
    (fst (calls load 3 (parser_start true EncAny (Mk_source [] (map (fun b => SData [b]) demo_saved))))) =
  [([(Document.NSequence [2; 3; 3]%Z SeqFlow, Some SEQ_TAG); (Document.NScalar (lit "a: " ++ [233; 10]) SDouble, Some (lit "tag:e,2000:k")); (Document.NSequence [3]%Z SeqFlow, Some SEQ_TAG)], true);
   ([(Document.NMapping [(2, 3)]%Z MapFlow, Some MAP_TAG); (Document.NScalar (lit "k") SDouble, Some STR_TAG); (Document.NScalar [] SDouble, Some STR_TAG)], true); ([], d_end_implicit no_document)].
Proof. vm_compute. auto. Qed.
