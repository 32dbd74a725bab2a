(** Prop_Kept.v -- C48: documents saved without [canonical] are loaded again.

    The counterpart of C43 for the layouts people use: [save] is a sequence of calls of
    [Document::dump] followed by [Emitter::close], with any settings but [canonical], any fault
    schedule of the output handler, and any documents that [dump] can write (C23), shared and cyclic
    ones included.  The bytes may come back to a parser in any chunks, with any interruptions.  What
    [Document::load] then returns is, document by document, the same graph of nodes, renumbered. *)
From Coq Require Import Lia ZifyBool ZifyNat ZifyN Bool.
From Verif Require Import Base Utf Chars State Reader Scanner Parser ScanFacts EState Emitter Document Api Spec_Scanner Spec_Reader Spec_Parser Spec_Events EventFacts Spec_Document Spec_Dump LoadSession Prop_Document DumpFacts DumpTree
  Spec_Emitter Spec_EmitNames Prop_Emitter EmitSession EmitIo Prop_EmitGrammar Spec_Canonical Spec_Layout Spec_Save Spec_Kept SaveFacts SaveLoad SaveRun Prop_Dump Prop_Save LaySave Prop_Layout.
From Verif Require Prop_Canonical.
Open Scope N_scope.

Lemma valid_weaker d : valid_event true d -> valid_event false d.
Proof.
  intros ((A & B) & V). split; [|exact V]. split; [exact A|]. destruct d; cbn [written_tag orb] in *; try exact B; repeat match goal with |- context [if ?b then _ else _] => destruct b end; try exact I; exact B.
Qed.
Lemma evs_foldable l : Forall fine l -> Forall (fun d => Forall node_foldable (d_nodes d)) (map fst l) -> Forall foldable (all_evs l).
Proof.
  induction 1 as [|[d w] l [Hs Hw] F IH]; intros Hb; [apply Forall_cons; [exact I|constructor]|]. cbn [map fst] in Hb. cbn [all_evs]. apply Forall_app. split; [|exact (IH (Forall_inv_tail Hb))].
  apply Forall_cons; [exact I|]. apply Forall_app. split; [|apply Forall_cons; [exact I|constructor]]. apply Forall_inv in Hb. rewrite Forall_forall in Hb.
  eapply Forall_impl; [|exact (walk_good _ _ Hw)]. intros x Hx. destruct x; try exact I. cbn [wgood foldable] in *. destruct Hx as (_ & n & Hin & _ & Hd). specialize (Hb n Hin). unfold node_foldable in Hb. rewrite Hd in Hb. exact Hb.
Qed.
Lemma evs_root d w l : fine (d, w) -> invisible d = false -> visible_root (all_evs ((d, w) :: l)).
Proof.
  intros [Hs Hw] Hi. cbn [fst] in Hs. destruct Hw as (_ & (seen & W) & G & _). cbn [fst snd] in *. cbn [all_evs]. unfold doc_evs. cbn [app visible_root].
  destruct Hs as (Hne & _). unfold invisible, has_directives in Hi. destruct (d_nodes d) as [|n ns] eqn:En; [contradiction|].
  destruct (d_version_directive d); [exact I|]. destruct (d_tag_directives d); [|exact I]. destruct (d_start_implicit d); [|exact I]. cbn [andb negb] in Hi.
  assert (Hk : kth_node (n :: ns) 1%Z = Some n) by reflexivity.
  inversion W; subst; cbn [goes_to] in *; subst.
  - contradiction.
  - rewrite Hk in H0. injection H0 as <-. cbn [wev]. rewrite Hk, H1. cbn [app]. destruct (nm d 1); [exact I|]. destruct v; [|exact I]. rewrite H1 in Hi. destruct (tag_is n STR_TAG); [|exact I]. destruct st; try exact I; discriminate Hi.
  - rewrite Hk in H0. injection H0 as <-. cbn [wev]. rewrite Hk, H1. exact I.
  - rewrite Hk in H0. injection H0 as <-. cbn [wev]. rewrite Hk, H1. exact I.
Qed.
Lemma keep_evs l : Forall fine l -> forall es, Forall2 told (all_evs l) (map e_data es) ->
  exists ds', Forall2 kept_document (map fst l) ds' /\ forall n, documents_from es (ds' ++ repeat no_document (S n)).
Proof.
  induction 1 as [|[d w] l [Hs Hw] _ IH]; intros es E.
  - apply told_one in E. destruct E as (e & -> & E). exists []. split; [constructor|]. intros n. apply (DF_end e n). inversion E. reflexivity.
  - cbn [all_evs] in E. apply told_app in E. destruct E as (g & es2 & -> & Eg & E2).
    destruct (IH es2 E2) as (ds' & Hsa & Hdf). pose proof (walked_named _ _ Hw) as Hn. destruct Hw as (_ & (seen & W) & G & _). cbn [fst snd] in *.
    destruct (walk_document (d_nodes d) (nm d) (nm_inj d) w seen _ _ _ _ g W G Hn Eg) as (d' & Hd & Hg & H1 & H2).
    exists (d' :: ds'). split; [|intros n; cbn [app]; constructor; [exact Hd|apply Hdf]]. cbn [map fst]. constructor; [|exact Hsa]. split; [exact Hg|]. auto.
Qed.

Theorem C48_saved_documents_are_kept : forall st plan ds,
  st_canonical st = false -> effective_encoding (st_encoding st) EncAny = Utf8 ->
  ds <> [] -> Forall storable ds -> Forall (fun d => Forall node_foldable (d_nodes d)) ds -> invisible (hd no_document ds) = false ->
  N.of_nat (volume ds) < 214748363 ->
  exists r s', save ds (new_emitter st plan) = (r, s') /\
  (r = Ok tt \/ exists k, r = Err (EIo (OtherIo k)) /\ In k (write_failures (new_emitter st plan))) /\
  (r = Ok tt -> forall dbg e i, Prop_Canonical.delivers i (output s') -> e = Utf8 \/ e = EncAny /\ first_read_ok i /\ hd 0 (output s') <> 239 ->
    exists ds', Forall2 kept_document ds ds' /\
    forall k, fst (calls load (length ds + k) (parser_start dbg e i)) = map Ok ds' ++ repeat (Ok no_document) k).
Proof.
  intros st plan ds Hcan Henc Hne Hs Hnb Hinv Hvol.
  assert (Hw : exists l, map fst l = ds /\ Forall fine l).
  { clear Hne Hvol Hnb Hinv. induction Hs as [|d ds Hd _ (l & <- & F)]; [exists []; auto|]. pose proof Hd as (D1 & D2 & _ & _ & _ & _ & _ & D3).
    destruct (C23_every_document_can_be_walked d (conj D1 D2)) as (w & seen & W & G & _). exists ((d, w) :: l). split; [reflexivity|]. constructor; [|exact F]. split; [exact Hd|].
    split; [split; assumption|]. split; [exists seen; exact W|]. split; [exact G|]. intros k Hk. exact (D3 w seen k W G Hk). }
  destruct Hw as (l & <- & F). assert (Fw : Forall walked l) by (eapply Forall_impl; [|exact F]; intros p Hp; apply Hp).
  assert (Hl : l <> []) by (intros ->; apply Hne; reflexivity).
  set (cl := map (fun d => CEmit (event_new d)) (all_evs l)).
  assert (Hem : map e_data (emitted cl) = all_evs l) by (unfold cl; clear; induction (all_evs l) as [|x r IH]; [reflexivity|]; cbn; f_equal; exact IH).
  pose proof (evs_valid l F) as Hval. pose proof (evs_length l Fw) as Hlen.
  assert (Hq : forall P, Forall P (all_evs l) -> Forall (fun e => P (e_data e)) (emitted cl)) by (intros P HP; rewrite <- Hem in HP; exact (proj1 (Forall_map _ _ _) HP)).
  destruct (C47_layout_round_trip st plan EncAny cl Hcan Henc) as (r & s1 & R1 & R2 & R3).
  - rewrite Hem. destruct (evs_documents l Fw) as (docs & Hd & ->). exists EncAny, docs. auto.
  - rewrite Hem. destruct l as [|[d w] l0]; [contradiction|discriminate].
  - apply (Hq (valid_event false)). eapply Forall_impl; [|exact Hval]. intros x Hx. apply valid_weaker, Hx.
  - apply (Hq plain_data). eapply Forall_impl; [|exact Hval]. intros x Hx. apply Hx.
  - rewrite Hem. apply evs_abbreviable, F.
  - apply (Hq foldable). apply evs_foldable; assumption.
  - rewrite Hem. apply short_shallow. lia.
  - rewrite Hem. destruct l as [|[d w] l0]; [contradiction|]. apply evs_root; [exact (Forall_inv F)|exact Hinv].
  - destruct (new_flags st plan) as (N1 & N2 & N3). pose proof (save_new l _ Fw Hl N1 N2 N3) as Hsave. rewrite emit_all_calls in Hsave. cbn [map] in Hsave. fold cl in Hsave. change (run_calls (CEmit (event_new (EvStreamStart EncAny)) :: cl)) with (Spec_Emitter.session EncAny cl) in Hsave. rewrite R1 in Hsave.
    destruct (save (map fst l) (new_emitter st plan)) as [r2 s2]. unfold result in Hsave. cbn [fst snd] in Hsave. injection Hsave as -> Hwr.
    exists r, s2. split; [reflexivity|]. split; [exact R2|]. intros Hr dbg e i Hi He.
    assert (Ho : output s2 = output s1) by (unfold output; rewrite Hwr; reflexivity). rewrite Ho in Hi.
    rewrite Ho in He. destruct (R3 Hr dbg e i Hi He) as (es & Ees & Hcalls). rewrite Hem in Ees. apply told_cons in Ees. destruct Ees as (e0 & es0 & -> & _ & Ees). rename es0 into es.
    destruct (keep_evs l F es Ees) as (ds' & Hsa & Hdf). exists ds'. split; [exact Hsa|]. intros k.
    specialize (Hcalls 0%nat). cbn [repeat] in Hcalls. rewrite app_nil_r, Nat.add_0_r in Hcalls.
    destruct (calls parser_next (length (e0 :: es)) (parser_start dbg e i)) as [os q] eqn:Eq. cbn [fst] in Hcalls. subst os.
    pose proof (C20_events_are_loaded dbg e i e0 es _ q Eq (Hdf k)) as Hload. rewrite app_length, repeat_length in Hload.
    assert (Hdl : length ds' = length (map fst l)) by (clear -Hsa; induction Hsa; cbn; congruence).
    replace (length ds' + S k)%nat with ((length (map fst l) + k) + 1)%nat in Hload by lia. rewrite LoadSession.calls_add in Hload.
    destruct (calls load (length (map fst l) + k) (parser_start dbg e i)) as [os q1]. cbn [fst]. destruct (calls load 1 q1) as [os1 q2] eqn:E1. cbn [fst] in Hload.
    cbn [calls] in E1. destruct (load q1) as [r1 q3]. injection E1 as <- _.
    replace (S k) with (k + 1)%nat in Hload by lia. rewrite repeat_app in Hload. cbn [repeat] in Hload. rewrite map_app, map_app, app_assoc in Hload. apply app_inj_tail in Hload. destruct Hload as [-> _].
    f_equal. clear. induction k; [reflexivity|]. cbn. f_equal. exact IHk.
Qed.
Print Assumptions C48_saved_documents_are_kept.

(** ** A concrete case: a cyclic document with directives (that of Prop_Save.v), and a mapping whose
    key is a sequence and whose values are empty or literal. *)
Definition demo_third : document :=
  Mk_doc [nd (Document.NMapping [(2, 4); (5, 6); (7, 8)] MapBlock)%Z MAP_TAG; nd (Document.NSequence [3] SeqBlock)%Z (lit "!s"); nd (Document.NScalar (lit "a # b") SPlain) STR_TAG;
          nd (Document.NScalar [] SPlain) STR_TAG; nd (Document.NScalar (lit "k") SSingle) (lit "tag:yaml.org,2002:int"); nd (Document.NMapping [] MapAny) MAP_TAG; nd (Document.NScalar (lit "t") SPlain) STR_TAG; nd (Document.NScalar (lit "x" ++ [10] ++ lit "  y" ++ [10]) SLiteral) STR_TAG] None [] true true mark0 mark0.
Example demo_kept_hyps : Forall storable [demo_cyclic; demo_third] /\ Forall (fun d => Forall node_foldable (d_nodes d)) [demo_cyclic; demo_third] /\
  invisible demo_cyclic = false /\ N.of_nat (volume [demo_cyclic; demo_third]) < 214748363.
Proof.
  split; [|split; [repeat apply Forall_cons; try apply Forall_nil; exact I|split; [reflexivity|vm_compute; reflexivity]]].
  apply Forall_cons; [exact (Forall_inv (proj1 demo_storable))|]. apply Forall_cons; [|apply Forall_nil]. split; [discriminate|split; [|split; [|split; [|split; [|split; [|split]]]]]].
  - repeat apply Forall_cons; try apply Forall_nil; cbn; repeat apply Forall_cons; try apply Forall_nil; try exact I; try split; lia.
  - repeat apply Forall_cons; try apply Forall_nil; (split; [cbn [n_tag nd]; split; [discriminate|split; [unfold ascii_text; demo_text|apply known_prefix; reflexivity]]|cbn [n_data nd]; first [exact I|demo_text]]).
  - exact I.
  - apply Forall_nil.
  - apply NoDup_nil.
  - apply Forall_nil.
  - intros w seen k W G Hk. destruct (proj1 (walks_unique (d_nodes demo_third)) [] (WkMapping 1 [(WkSequence 2 [WkScalar 3], WkScalar 4); (WkScalar 5, WkMapping 6 []); (WkScalar 7, WkScalar 8)])%Z [8; 7; 6; 5; 4; 3; 2; 1]%Z) with (w' := w) (s' := seen) as [E _]; [|exact W|rewrite G; reflexivity|].
    { eapply Wk_mapping; [intros []|reflexivity|reflexivity|].
      eapply WP_cons; [eapply Wk_sequence; [cbn; lia|reflexivity|reflexivity|eapply WL_cons; [eapply Wk_scalar; [cbn; lia|reflexivity|reflexivity]|apply WL_nil]]|eapply Wk_scalar; [cbn; lia|reflexivity|reflexivity]|].
      eapply WP_cons; [eapply Wk_scalar; [cbn; lia|reflexivity|reflexivity]|eapply (Wk_mapping _ _ _ _ []); [cbn; lia|reflexivity|reflexivity|apply WP_nil]|].
      eapply WP_cons; [eapply Wk_scalar; [cbn; lia|reflexivity|reflexivity]..|apply WP_nil]. }
    subst w. destruct Hk.
Qed.
Definition kept_st : settings := Mk_settings EncAny false 2 80 true BrLn.
Definition demo_kept : list byte := output (snd (save [demo_cyclic; demo_third] (new_emitter kept_st []))).
Example demo_kept_load :
  fst (save [demo_cyclic; demo_third] (new_emitter kept_st [])) = Ok tt /\
  demo_kept = encode_utf8 (lit "%YAML 1.1" ++ [10] ++ lit "%TAG !e! tag:e,2000:" ++ [10] ++ lit "---" ++ [10] ++ lit "- !e!k 'a: " ++ [233; 10; 10] ++ lit "  '" ++ [10] ++ lit "- &id001" ++ [10] ++ lit "  - *id001" ++ [10] ++ lit "- *id001" ++ [10] ++
    lit "---" ++ [10] ++ lit "? !s" ++ [10] ++ lit "- 'a # b'" ++ [10] ++ lit ":" ++ [10] ++ lit "!!int 'k': {}" ++ [10] ++ lit "t: |" ++ [10] ++ lit "  x" ++ [10] ++ lit "    y" ++ [10]) /\
  map (fun r => match r with Ok d => map (fun n => (n_data n, n_tag n)) (d_nodes d) | _ => [] end)
    (fst (calls load 3 (parser_start true EncAny (Mk_source [] (map (fun b => SData [b]) demo_kept))))) =
  [[(Document.NSequence [2; 3; 3]%Z SeqBlock, Some SEQ_TAG); (Document.NScalar (lit "a: " ++ [233; 10]) SSingle, Some (lit "tag:e,2000:k")); (Document.NSequence [3]%Z SeqBlock, Some SEQ_TAG)];
   [(Document.NMapping [(2, 4); (5, 6); (7, 8)]%Z MapBlock, Some MAP_TAG); (Document.NSequence [3]%Z SeqBlock, Some (lit "!s")); (Document.NScalar (lit "a # b") SSingle, Some STR_TAG);
    (Document.NScalar [] SPlain, Some STR_TAG); (Document.NScalar (lit "k") SSingle, Some (lit "tag:yaml.org,2002:int")); (Document.NMapping [] MapFlow, Some MAP_TAG);
    (Document.NScalar (lit "t") SPlain, Some STR_TAG); (Document.NScalar (lit "x" ++ [10] ++ lit "  y" ++ [10]) SLiteral, Some STR_TAG)]; []].
Proof. vm_compute. auto. Qed.
