(** ParserWalk3.v -- one call of the parser, the remaining states. *)
From Coq Require Import ZifyBool ZifyNat ZifyN.
From Verif Require Import Base Utf Chars State Reader Scanner Parser Api Wp ReaderFacts Spec_Tokens ScanFacts TokFacts FetchFacts FetchWp FetchLoop FlowFacts Spec_Scanner SessionFacts Spec_Events EventFacts ParserFacts ParserWalk ParserWalk2.

Lemma flow_entry_key_ok st del lo g s sts ms tds al :
  OK st del lo g parse_flow_sequence_entry_mapping_key (Mk_pst s sts PFlowSequenceEntryMappingKey ms tds al).
Proof.
  intros H. unfold parse_flow_sequence_entry_mapping_key.
  inside_prelude H He Hg Ht ds fs Hg' Hst [FKey; FSeq] rk PFlowSequenceEntryMappingKey sts g H0 C0. cbn [app] in Hg'.
  apply wp_bind. eapply peek_r; [exact H0|]. intros t s1 H1.
  assert (Hs : silent t = true -> is_stream_end t = false ->
    PW s (pskip ;; goto PFlowSequenceEntryMappingValue ;; ret (empty_scalar (t_end t))) (PQ st s del lo g rk) (Mk_pst s1 sts PFlowSequenceEntryMappingKey ms tds al)).
  { intros E1 E2. unfold PW. apply wp_bind. eapply skip_r; [exact H1|exact E2|]. intros s3 H3.
    assert (C3 : cpre s sts ([] ++ [t]) ms) by (apply cpre_skip; [exact C0|exact E1]).
    eapply stay_ok; try eassumption; try reflexivity; [rewrite Hg'; reflexivity|cbn [gof stack frs]; rewrite Hst; reflexivity| |].
    - rk_lia.
    - eapply evm_last; [apply H3|auto]. }
  assert (Hn : PW s (push_state PFlowSequenceEntryMappingValue ;; parse_node false false) (PQ st s del lo g rk) (Mk_pst s1 sts PFlowSequenceEntryMappingKey ms tds al)).
  { eapply push_ok; try eassumption; try reflexivity; [cbn [stack frs]; rewrite Hst; reflexivity|]. rk_lia. }
  destruct (t_data t) eqn:Et; try exact Hn; apply Hs; fl.
Qed.
Lemma flow_entry_value_ok st del lo g s sts ms tds al :
  OK st del lo g parse_flow_sequence_entry_mapping_value (Mk_pst s sts PFlowSequenceEntryMappingValue ms tds al).
Proof.
  intros H. unfold parse_flow_sequence_entry_mapping_value.
  inside_prelude H He Hg Ht ds fs Hg' Hst [FVal; FSeq] rk PFlowSequenceEntryMappingValue sts g H0 C0. cbn [app] in Hg'.
  apply wp_bind. eapply peek_r; [exact H0|]. intros t s1 H1.
  assert (HK : PW s (goto PFlowSequenceEntryMappingEnd ;; ret (empty_scalar (t_start t))) (PQ st s del lo g rk) (Mk_pst s1 sts PFlowSequenceEntryMappingValue ms tds al)).
  { eapply stay_ok; try eassumption; try reflexivity; [apply H1|rewrite Hg'; reflexivity|cbn [gof stack frs]; rewrite Hst; reflexivity| |].
    - rk_lia.
    - eapply evm_at; [exact H1|auto]. }
  destruct (t_data t) eqn:Et; try exact HK; clear HK.
  apply wp_bind. eapply skip_r; [exact H1|fl|]. intros s3 H3.
  assert (C3 : cpre s sts ([] ++ [t]) ms) by (apply cpre_skip; [exact C0|fl]).
  apply wp_bind. eapply peek_r; [exact H3|]. intros t2 s4 H4.
  assert (Hs : PW s (goto PFlowSequenceEntryMappingEnd ;; ret (empty_scalar (t_start t2))) (PQ st s del lo g rk) (Mk_pst s4 sts PFlowSequenceEntryMappingValue ms tds al)).
  { eapply stay_ok; try eassumption; try reflexivity; [apply H4|rewrite Hg'; reflexivity|cbn [gof stack frs]; rewrite Hst; reflexivity| |].
    - rk_lia.
    - eapply evm_at; [exact H4|auto]. }
  assert (Hn : PW s (push_state PFlowSequenceEntryMappingEnd ;; parse_node false false) (PQ st s del lo g rk) (Mk_pst s4 sts PFlowSequenceEntryMappingValue ms tds al)).
  { eapply push_ok; try eassumption; try reflexivity; [cbn [stack frs]; rewrite Hst; reflexivity|]. rk_lia. }
  destruct (t_data t2); first [exact Hs|exact Hn].
Qed.
Lemma flow_entry_end_ok st del lo g s sts ms tds al :
  OK st del lo g parse_flow_sequence_entry_mapping_end (Mk_pst s sts PFlowSequenceEntryMappingEnd ms tds al).
Proof.
  intros H. unfold parse_flow_sequence_entry_mapping_end.
  inside_prelude H He Hg Ht ds fs Hg' Hst [FKey; FSeq] rk PFlowSequenceEntryMappingEnd sts g H0 C0. cbn [app] in Hg'.
  apply wp_bind. eapply peek_r; [exact H0|]. intros t s1 H1.
  eapply stay_ok; try eassumption; try reflexivity; [apply H1|rewrite Hg'; reflexivity|cbn [gof stack frs]; rewrite Hst; reflexivity| |].
  - rk_lia.
  - eapply evm_at; [exact H1|auto].
Qed.

Lemma indentless_ok st del lo g s sts ms tds al :
  OK st del lo g parse_indentless_sequence_entry (Mk_pst s sts PIndentlessSequenceEntry ms tds al).
Proof.
  intros H. unfold parse_indentless_sequence_entry.
  pose proof (Sc_start _ _ _ _ _ H eq_refl) as H0. pose proof (mok_start _ _ _ _ _ H) as Hmk. pose proof (pi_marks _ _ _ _ _ H) as Hl.
  pose proof (pi_g _ _ _ _ _ H) as Hg. pose proof (pi_td _ _ _ _ _ H) as Ht. cbn [sc state states marks tag_directives nmarks mk] in *.
  assert (exists ds fs, g = GDoc ds (FSeq :: fs) /\ stack sts = Some fs) as (ds & fs & Hg' & Hst).
  { cbn [gof stack frs] in Hg. destruct (stack sts) as [fs|]; try discriminate. cbn in Hg. injection Hg as Hg. eauto. }
  set (rk := rank (PIndentlessSequenceEntry :: sts)). unfold PW.
  apply wp_bind. eapply peek_r; [exact H0|]. intros t s1 H1.
  assert (HK : PW s (pop_state ;; ret (Mk_event EvSequenceEnd (t_start t) (t_end t))) (PQ st s del lo g rk) (Mk_pst s1 sts PIndentlessSequenceEntry ms tds al)).
  { unfold PW. apply wp_bind. eapply pop_r; [exact Hst|]. intros y r ->. apply wp_ret. destruct (stack_gof y r fs ds Hst) as (S1 & S2 & S3).
    eapply (plain_leaf st s del lo g rk [] s1 _ _ _ _ _ _ _ _ (GDoc ds fs)); auto.
    - apply H1.
    - rewrite Hg'. reflexivity.
    - rewrite Hg' in Ht. exact Ht.
    - rk_lia.
    - eapply evm_at; [exact H1|auto]. }
  destruct (t_data t) eqn:Et; try exact HK; clear HK.
  apply wp_bind. eapply skip_r; [exact H1|fl|]. intros s3 H3.
  apply wp_bind. eapply peek_r; [exact H3|]. intros t2 s4 H4.
  assert (Hsil : forallb silent ([] ++ [t]) = true) by (cbn; rewrite andb_true_r; fl).
  assert (Hs : PW s (goto PIndentlessSequenceEntry ;; ret (empty_scalar (t_end t))) (PQ st s del lo g rk) (Mk_pst s4 sts PIndentlessSequenceEntry ms tds al)).
  { unfold PW. apply wp_bind. unfold goto. apply wp_modify. unfold set_state. cbn [sc states state marks tag_directives aliases]. apply wp_ret.
    eapply (plain_leaf st s del lo g rk ([] ++ [t]) s4 _ _ _ _ _ _ _ _ (GDoc ds (FSeq :: fs))); auto.
    - apply H4.
    - rewrite Hg'. reflexivity.
    - cbn [gof stack frs]. rewrite Hst. reflexivity.
    - apply mok_app, Hmk.
    - rewrite Hg' in Ht. exact Ht.
    - rk_lia.
    - eapply evm_last; [apply H4|auto]. }
  assert (Hn : PW s (push_state PIndentlessSequenceEntry ;; parse_node true false) (PQ st s del lo g rk) (Mk_pst s4 sts PIndentlessSequenceEntry ms tds al)).
  { unfold PW. apply wp_bind. unfold push_state. apply wp_modify. unfold set_states. cbn [sc states state marks tag_directives aliases].
    eapply node_ok; try eassumption; [reflexivity|cbn [stack frs]; rewrite Hst; reflexivity| |].
    - apply (mok_app s [] [t]), Hmk.
    - rk_lia. }
  destruct (t_data t2); first [exact Hs|exact Hn].
Qed.

(** The root node. *)
Lemma root_facts st del lo g s sts x ms tds al : PI st del lo g (Mk_pst s sts x ms tds al) -> x = PDocumentContent \/ x = PBlockNode ->
  exists ds, sts = [PDocumentEnd] /\ g = GDoc ds [FRoot] /\ ms = [] /\ Sc st s del lo [] s.
Proof.
  intros H Hx. assert (He : is_end x = false) by (destruct Hx; subst; reflexivity). pose proof (Sc_start _ _ _ _ _ H He) as H0.
  pose proof (pi_marks _ _ _ _ _ H) as Hl. pose proof (pi_g _ _ _ _ _ H) as Hg. cbn [sc state states marks nmarks] in *.
  assert (Hs : sts = [PDocumentEnd] /\ GDoc (ds_of g) [FRoot] = g).
  { destruct Hx; subst x; cbn [gof] in Hg; (destruct sts as [|y r]; [discriminate Hg|]); destruct y; try discriminate Hg; (destruct r; [|discriminate Hg]);
      injection Hg as Hg; auto. }
  destruct Hs as [-> Hg']. exists (ds_of g). destruct ms; [|destruct Hx; subst x; discriminate Hl]. auto.
Qed.
Lemma block_node_ok st del lo g s sts ms tds al : OK st del lo g (parse_node true false) (Mk_pst s sts PBlockNode ms tds al).
Proof.
  intros H. destruct (root_facts _ _ _ _ _ _ _ _ _ _ H (or_intror eq_refl)) as (ds & -> & -> & -> & H0).
  pose proof (pi_td _ _ _ _ _ H) as Ht. cbn [sc state states marks tag_directives] in *. unfold parse_node. eapply peek_first; [exact H0|].
  intros t s' H1. change (PW s (parse_node true false) (PQ st s del lo (GDoc ds [FRoot]) (rank [PBlockNode; PDocumentEnd])) (Mk_pst s' [PDocumentEnd] PBlockNode [] tds al)).
  eapply node_ok; try eassumption; try reflexivity; try solve [constructor]; cbn; lia.
Qed.
Lemma document_content_ok st del lo g s sts ms tds al : OK st del lo g parse_document_content (Mk_pst s sts PDocumentContent ms tds al).
Proof.
  intros H. destruct (root_facts _ _ _ _ _ _ _ _ _ _ H (or_introl eq_refl)) as (ds & -> & -> & -> & H0).
  pose proof (pi_td _ _ _ _ _ H) as Ht. cbn [sc state states marks tag_directives] in *. unfold parse_document_content, PW. apply wp_bind.
  eapply peek_r; [exact H0|]. intros t s1 H1.
  set (rk := rank [PDocumentContent; PDocumentEnd]).
  assert (Hn : PW s (parse_node true false) (PQ st s del lo (GDoc ds [FRoot]) rk) (Mk_pst s1 [PDocumentEnd] PDocumentContent [] tds al)).
  { eapply node_ok; try eassumption; try reflexivity; try solve [constructor]; cbn; lia. }
  assert (Hs : PW s (pop_state ;; ret (empty_scalar (t_start t))) (PQ st s del lo (GDoc ds [FRoot]) rk) (Mk_pst s1 [PDocumentEnd] PDocumentContent [] tds al)).
  { unfold PW. apply wp_bind. eapply pop_r; [reflexivity|]. intros y r [= <- <-]. apply wp_ret.
    eapply (plain_leaf st s del lo _ rk [] s1 _ _ _ _ _ _ _ _ (GDoc ds [FDone])); auto.
    - apply H1.
    - constructor.
    - eapply evm_at; [exact H1|auto]. }
  destruct (t_data t); first [exact Hs|exact Hn].
Qed.
Lemma document_end_ok st del lo g s sts ms tds al : OK st del lo g parse_document_end (Mk_pst s sts PDocumentEnd ms tds al).
Proof.
  intros H. pose proof (Sc_start _ _ _ _ _ H eq_refl) as H0. pose proof (pi_marks _ _ _ _ _ H) as Hl. pose proof (pi_g _ _ _ _ _ H) as Hg.
  cbn [sc state states marks nmarks mk] in *. cbn [gof stack] in Hg. destruct sts; [|discriminate]. cbn in Hg. injection Hg as Hg.
  destruct ms; [|discriminate]. clear Hl. unfold parse_document_end, PW. apply wp_bind. eapply peek_r; [exact H0|]. intros t s1 H1.
  set (rk := rank [PDocumentEnd]).
  assert (Hfin : forall ts s' em imp, Sc st s del lo ts s' -> forallb silent ts = true -> evm lo ts s' (t_start t) em ->
     PQ st s del lo g rk (Mk_event (EvDocumentEnd imp) (t_start t) em) (Mk_pst s' [] PDocumentStart [] [] al)).
  { intros ts s' em imp H2 Hs E. eapply (plain_leaf st s del lo g rk ts s' _ _ _ _ _ _ _ _ GDocs); auto.
    - rewrite <- Hg. reflexivity.
    - constructor.
    - reflexivity.
    - cbn. lia. }
  apply wp_bind.
  assert (HK : PW s (ret (t_start t, true)) (fun r p' => wp (let '(end_mark, implicit) := r in
     modify (fun p => set_state PDocumentStart (set_tag_directives [] p)) ;; ret (Mk_event (EvDocumentEnd implicit) (t_start t) end_mark))
     (PQ st s del lo g rk) (perr s) (fpanic s) p') (Mk_pst s1 [] PDocumentEnd [] tds al)).
  { apply wp_ret. apply wp_bind, wp_modify. apply wp_ret. apply (Hfin []); [apply H1|reflexivity|eapply evm_at; [exact H1|auto]]. }
  destruct (t_data t) eqn:Et; try exact HK. clear HK.
  apply wp_bind. eapply skip_r; [exact H1|fl|]. intros s3 H3. apply wp_ret. apply wp_bind, wp_modify. apply wp_ret.
  apply (Hfin _ _ _ _ H3); [cbn; rewrite andb_true_r; fl|]. eapply evm_last; [exact H3|auto].
Qed.

Lemma stream_start_ok st del lo g s sts ms tds al : OK st del lo g parse_stream_start (Mk_pst s sts PStreamStart ms tds al).
Proof.
  intros H. pose proof (Sc_start _ _ _ _ _ H eq_refl) as H0. pose proof (pi_marks _ _ _ _ _ H) as Hl. pose proof (pi_g _ _ _ _ _ H) as Hg.
  pose proof (pi_td _ _ _ _ _ H) as Ht.
  cbn [sc state states marks nmarks mk tag_directives] in *. cbn [gof] in Hg. destruct sts; [|discriminate]. injection Hg as <-. cbn in Ht. subst tds.
  destruct ms; [|discriminate]. clear Hl. unfold parse_stream_start, PW. apply wp_bind. eapply peek_r; [exact H0|]. intros t s1 H1.
  destruct (tok_at _ _ _ _ _ _ _ H1) as (M1 & M2 & M3 & _).
  assert (HK : forall Q : event -> pst -> Prop, PW s (fail (EParser "" mark0 "did not find expected <stream-start>" (t_start t))) Q (Mk_pst s1 [] PStreamStart [] [] al)).
  { intros Q. apply wp_fail. eapply perr_parser; [apply H1|apply mark0_le|eapply mark_le_trans; eassumption]. }
  destruct (t_data t) eqn:Et; try apply HK. clear HK.
  apply wp_bind. unfold goto. apply wp_modify. unfold set_state. cbn [sc states state marks tag_directives aliases].
  apply wp_bind. eapply skip_r; [exact H1|fl|]. intros s3 H3. apply wp_ret.
  eapply (leaf_sc st s del lo GStart _ ([] ++ [t]) s3 _ _ _ _ _ _ GDocs); cbn [e_data e_start e_end ds_of]; auto.
  - cbn [app]. constructor; unfold anchors, tags, aliases_in, scalars, versions, tag_dirs, doc_starts; cbn [flat_map filter]; rewrite ?Et; cbn; auto.
    exists t. auto.
  - exact I.
  - exact I.
  - reflexivity.
  - eapply (tok_in _ _ _ _ _ _ _ H3). left. reflexivity.
  - right. exists [], t. auto.
Qed.
