(** ParserWalk2.v -- one call of the parser, state by state. *)
From Coq Require Import ZifyBool ZifyNat ZifyN.
From Verif Require Import Base Utf Chars State Reader Scanner Parser Api Wp ReaderFacts Spec_Tokens ScanFacts TokFacts FetchFacts FetchWp FetchLoop FlowFacts Spec_Scanner SessionFacts Spec_Events EventFacts ParserFacts ParserWalk.

Ltac fl := unfold silent, is_stream_end; match goal with H : t_data ?t = _ |- context [t_data ?t] => rewrite H; reflexivity end.

Lemma Sc_start st del lo g p : PI st del lo g p -> is_end (state p) = false -> Sc st (sc p) del lo [] (sc p).
Proof.
  intros [I (s1 & Hs1 & Hs2 & Hs3) Hse Hlo Hgo Hm Hml Hf Ht] He. constructor; rewrite ?app_nil_r; auto.
  - congruence.
  - apply prog_refl.
  - exists s1. rewrite <- He. auto.
  - cbn [ordered]. destruct Hlo as [->|[(Ha & t & r & Et & Hle)|(d & t & -> & Hle)]]; [apply mark0_le| |].
    + destruct (front_facts _ _ _ _ _ I Et) as (F1 & F2 & _). eapply mark_le_trans; [exact Hle|]. eapply mark_le_trans; eassumption.
    + pose proof (si_ord _ _ _ I) as Ho. destruct (ordered_in _ _ _ t Ho) as [_ H2]; [|eapply mark_le_trans; eassumption].
      unfold all. apply in_or_app. left. apply in_or_app. right. left. reflexivity.
Qed.
Lemma mok_start st del lo g p : PI st del lo g p -> mok (sc p) [] (marks p).
Proof. intros H. eapply Forall_impl; [|apply (pi_mle _ _ _ _ _ H)]. auto. Qed.

Lemma At_intro st s0 del lo s t r : Sc st s0 del lo [] s -> token_available s = true -> tokens s = t :: r -> At st s0 del lo [] t s.
Proof.
  intros H Ha Ht. constructor; [exact H|exact Ha|eauto|]. pose proof (sc_inv _ _ _ _ _ _ H) as I. rewrite app_nil_r in I.
  destruct (front_facts _ _ _ _ _ I Ht) as (F1 & F2 & F3). cbn [app ordered]. split; [|auto].
  destruct (sc_lo _ _ _ _ _ _ H eq_refl) as [->|[(_ & t' & r' & Et & Hle)|(d & u & E & Hle)]]; [apply mark0_le| |].
  - rewrite Ht in Et. injection Et as <- <-. exact Hle.
  - eapply mark_le_trans; [exact Hle|eapply F3, E].
Qed.
(** The prologue of the collection states. *)
Lemma enter_ok st del lo g (first : bool) s sts x ms tds al : PI st del lo g (Mk_pst s sts x ms tds al) -> is_end x = false ->
  (if first then first_tok x <> None /\ mk x = 0%nat else mk x = 1%nat) ->
  PW s (enter_collection first) (fun _ p' => exists ts s' ms', p' = Mk_pst s' sts x ms' tds al /\ Sc st s del lo ts s' /\
     cpre s sts ts ms' /\ length ts = if first then 1%nat else 0%nat) (Mk_pst s sts x ms tds al).
Proof.
  intros H He Hx. pose proof (Sc_start _ _ _ _ _ H He) as H0. pose proof (mok_start _ _ _ _ _ H) as Hm. pose proof (pi_marks _ _ _ _ _ H) as Hl.
  cbn [sc state states marks nmarks] in *. unfold enter_collection, PW. destruct first.
  2:{ apply wp_ret. exists [], s, ms. rewrite Hx in Hl. split; [reflexivity|]. split; [exact H0|]. split; [|reflexivity]. split; [exact Hm|]. split; [exact Hl|reflexivity]. }
  destruct Hx as [Hx1 Hx2]. apply wp_bind.
  pose proof (pi_first _ _ _ _ _ H) as Hf. unfold first_ok in Hf. cbn [state sc] in Hf. destruct (first_tok x) as [d|] eqn:Ef; [|contradiction].
  destruct Hf as (Ha & t & r & Ht & Htd).
  pose proof (At_intro _ _ _ _ _ _ _ H0 Ha Ht) as H1. eapply peek_at; [exact H1|]. apply wp_bind. unfold push_mark. apply wp_modify.
  unfold set_marks. cbn [sc states state marks tag_directives aliases].
  assert (Hsil : silent t = true /\ is_stream_end t = false).
  { unfold silent, is_stream_end. rewrite Htd. destruct x; try discriminate Ef; injection Ef as <-; auto. }
  eapply skip_r; [exact H1|apply Hsil|]. intros s' H2. exists [t], s', (t_start t :: ms).
  split; [reflexivity|]. split; [exact H2|]. split; [|reflexivity]. split; [|split].
  - constructor; [right; left; reflexivity|]. eapply (mok_app s [] [t]), Hm.
  - cbn [length]. rewrite Hl, Hx2. reflexivity.
  - cbn. rewrite (proj1 Hsil). reflexivity.
Qed.

Definition OK st del lo g (m : M pst event) (p : pst) : Prop :=
  PI st del lo g p -> PW (sc p) m (PQ st (sc p) del lo g (rank (state p :: states p))) p.

Lemma block_seq_ok (first : bool) st del lo g s sts x ms tds al :
  x = (if first then PBlockSequenceFirstEntry else PBlockSequenceEntry) ->
  OK st del lo g (parse_block_sequence_entry first) (Mk_pst s sts x ms tds al).
Proof.
  intros Hx H. assert (He : is_end x = false) by (rewrite Hx; destruct first; reflexivity).
  pose proof (pi_g _ _ _ _ _ H) as Hg. pose proof (pi_td _ _ _ _ _ H) as Ht. cbn [sc state states tag_directives] in *.
  assert (exists ds fs, g = GDoc ds (FSeq :: fs) /\ stack sts = Some fs) as (ds & fs & Hg' & Hst).
  { rewrite Hx in Hg. destruct first; cbn [gof stack frs] in Hg; destruct (stack sts) as [fs|]; try discriminate; cbn in Hg; injection Hg as Hg; eauto. }
  set (rk := rank (x :: sts)).
  unfold parse_block_sequence_entry, PW. apply wp_bind.
  eapply wp_conseq; [eapply (enter_ok st del lo g first s sts x ms tds al H He); rewrite Hx; destruct first; cbn; auto; split; [discriminate|reflexivity]| |auto|auto].
  intros _ p1 (ts & s1 & ms1 & -> & H1 & C1 & L1). cbv beta.
  apply wp_bind. eapply peek_r; [exact H1|]. intros t s2 H2. clear s1 H1.
  match goal with |- wp (match _ with TStreamStart _ => ?K | _ => _ end) _ _ _ _ => assert (HK : PW s K (PQ st s del lo g rk) (Mk_pst s2 sts x ms1 tds al)) by (eapply error_ok; eassumption) end.
  destruct (t_data t) eqn:Et; try exact HK; clear HK.
  - (* block end *)
    eapply leave_ok; try eassumption; try fl; [reflexivity|rewrite Hg'; reflexivity|]. subst x. destruct first; cbn; lia.
  - (* an entry *)
    apply wp_bind. eapply skip_r; [exact H2|fl|]. intros s3 H3.
    assert (C3 : cpre s sts (ts ++ [t]) ms1).
    { destruct C1 as (A1 & A2 & A3). split; [apply mok_app, A1|]. split; [exact A2|]. rewrite forallb_app, A3. cbn. fl. }
    apply wp_bind. eapply peek_r; [exact H3|]. intros t2 s4 H4.
    assert (Hs : PW s (goto PBlockSequenceEntry ;; ret (empty_scalar (t_end t))) (PQ st s del lo g rk) (Mk_pst s4 sts x ms1 tds al)).
    { eapply stay_ok; try eassumption; try reflexivity; [apply H4|rewrite Hg'; reflexivity|cbn [gof stack frs]; rewrite Hst; reflexivity| |].
      - rewrite app_length. subst rk x. destruct first; cbn; lia.
      - eapply evm_last; [apply H4|auto]. }
    assert (Hn : PW s (push_state PBlockSequenceEntry ;; parse_node true false) (PQ st s del lo g rk) (Mk_pst s4 sts x ms1 tds al)).
    { eapply push_ok; try eassumption; try reflexivity; [cbn [stack frs]; rewrite Hst; reflexivity|]. rewrite app_length. subst rk x. destruct first; cbn; lia. }
    destruct (t_data t2); first [exact Hs|exact Hn].
Qed.

Ltac collection_prelude first Hx H He Hg Ht ds fs Hg' Hst fr rk x sts st del lo g s ms tds al ts s1 ms1 H1 C1 L1 :=
  assert (He : is_end x = false) by (rewrite Hx; destruct first; reflexivity);
  pose proof (pi_g _ _ _ _ _ H) as Hg; pose proof (pi_td _ _ _ _ _ H) as Ht; cbn [sc state states tag_directives] in *;
  assert (exists ds fs, g = GDoc ds (fr :: fs) /\ stack sts = Some fs) as (ds & fs & Hg' & Hst);
  [rewrite Hx in Hg; destruct first; cbn [gof stack frs] in Hg; destruct (stack sts) as [fs|]; try discriminate; cbn in Hg; injection Hg as Hg; eauto|];
  set (rk := rank (x :: sts));
  unfold PW; apply wp_bind;
  (eapply wp_conseq; [eapply (enter_ok st del lo g first s sts x ms tds al H He); rewrite Hx; destruct first; cbn; auto; split; [discriminate|reflexivity]| |auto|auto]);
  intros _ p1 (ts & s1 & ms1 & -> & H1 & C1 & L1); cbv beta.

Lemma cpre_skip s0 sts ts t ms : cpre s0 sts ts ms -> silent t = true -> cpre s0 sts (ts ++ [t]) ms.
Proof. intros (A1 & A2 & A3) Ht. split; [apply mok_app, A1|]. split; [exact A2|]. rewrite forallb_app, A3. cbn. rewrite Ht. reflexivity. Qed.

Ltac rk_lia := rewrite ?app_length; match goal with rk := _ |- _ => subst rk end;
  repeat match goal with H : ?x = (if ?b then _ else _) |- _ => rewrite H; destruct b end; cbn; lia.

Lemma block_map_key_ok (first : bool) st del lo g s sts x ms tds al :
  x = (if first then PBlockMappingFirstKey else PBlockMappingKey) ->
  OK st del lo g (parse_block_mapping_key first) (Mk_pst s sts x ms tds al).
Proof.
  intros Hx H. unfold parse_block_mapping_key.
  collection_prelude first Hx H He Hg Ht ds fs Hg' Hst FKey rk x sts st del lo g s ms tds al ts s1 ms1 H1 C1 L1.
  apply wp_bind. eapply peek_r; [exact H1|]. intros t s2 H2. clear s1 H1.
  match goal with |- wp (match _ with TStreamStart _ => ?K | _ => _ end) _ _ _ _ => assert (HK : PW s K (PQ st s del lo g rk) (Mk_pst s2 sts x ms1 tds al)) by (eapply error_ok; eassumption) end.
  destruct (t_data t) eqn:Et; try exact HK; clear HK.
  - eapply leave_ok; try eassumption; try fl; [reflexivity|rewrite Hg'; reflexivity|]. rk_lia.
  - apply wp_bind. eapply skip_r; [exact H2|fl|]. intros s3 H3.
    assert (C3 : cpre s sts (ts ++ [t]) ms1) by (apply cpre_skip; [exact C1|fl]).
    apply wp_bind. eapply peek_r; [exact H3|]. intros t2 s4 H4.
    assert (Hs : PW s (goto PBlockMappingValue ;; ret (empty_scalar (t_end t))) (PQ st s del lo g rk) (Mk_pst s4 sts x ms1 tds al)).
    { eapply stay_ok; try eassumption; try reflexivity; [apply H4|rewrite Hg'; reflexivity|cbn [gof stack frs]; rewrite Hst; reflexivity| |].
      - rk_lia.
      - eapply evm_last; [apply H4|auto]. }
    assert (Hn : PW s (push_state PBlockMappingValue ;; parse_node true true) (PQ st s del lo g rk) (Mk_pst s4 sts x ms1 tds al)).
    { eapply push_ok; try eassumption; try reflexivity; [cbn [stack frs]; rewrite Hst; reflexivity|]. rk_lia. }
    destruct (t_data t2); first [exact Hs|exact Hn].
Qed.

(** States inside a collection that do not start with the prologue. *)
Lemma inside st del lo g s sts x ms tds al : PI st del lo g (Mk_pst s sts x ms tds al) -> is_end x = false -> mk x = 1%nat ->
  Sc st s del lo [] s /\ cpre s sts [] ms.
Proof.
  intros H He Hm. pose proof (Sc_start _ _ _ _ _ H He) as H0. pose proof (mok_start _ _ _ _ _ H) as Hmk. pose proof (pi_marks _ _ _ _ _ H) as Hl.
  cbn [sc state states marks nmarks] in *. rewrite Hm in Hl. split; [exact H0|]. split; [exact Hmk|]. split; [exact Hl|reflexivity].
Qed.
Ltac inside_prelude H He Hg Ht ds fs Hg' Hst frl rk x sts g H0 C0 :=
  destruct (inside _ _ _ _ _ _ _ _ _ _ H eq_refl eq_refl) as [H0 C0];
  pose proof (pi_g _ _ _ _ _ H) as Hg; pose proof (pi_td _ _ _ _ _ H) as Ht; cbn [sc state states tag_directives] in *;
  assert (exists ds fs, g = GDoc ds (frl ++ fs) /\ stack sts = Some fs) as (ds & fs & Hg' & Hst);
  [cbn [gof stack frs] in Hg; destruct (stack sts) as [fs|]; try discriminate; cbn in Hg; injection Hg as Hg; exists (ds_of g), fs; split; [symmetry; exact Hg|reflexivity]|];
  set (rk := rank (x :: sts));
  unfold PW.

Lemma block_map_value_ok st del lo g s sts ms tds al :
  OK st del lo g parse_block_mapping_value (Mk_pst s sts PBlockMappingValue ms tds al).
Proof.
  intros H. unfold parse_block_mapping_value.
  inside_prelude H He Hg Ht ds fs Hg' Hst [FVal] rk PBlockMappingValue sts g H0 C0. cbn [app] in Hg'.
  apply wp_bind. eapply peek_r; [exact H0|]. intros t s1 H1.
  match goal with |- wp (match _ with TStreamStart _ => ?K | _ => _ end) _ _ _ _ => assert (HK : PW s K (PQ st s del lo g rk) (Mk_pst s1 sts PBlockMappingValue ms tds al)) end.
  { eapply stay_ok; try eassumption; try reflexivity; [apply H1|rewrite Hg'; reflexivity|cbn [gof stack frs]; rewrite Hst; reflexivity| |].
    - rk_lia.
    - eapply evm_at; [exact H1|auto]. }
  destruct (t_data t) eqn:Et; try exact HK; clear HK.
  apply wp_bind. eapply skip_r; [exact H1|fl|]. intros s3 H3.
  assert (C3 : cpre s sts ([] ++ [t]) ms) by (apply cpre_skip; [exact C0|fl]).
  apply wp_bind. eapply peek_r; [exact H3|]. intros t2 s4 H4.
  assert (Hs : PW s (goto PBlockMappingKey ;; ret (empty_scalar (t_end t))) (PQ st s del lo g rk) (Mk_pst s4 sts PBlockMappingValue ms tds al)).
  { eapply stay_ok; try eassumption; try reflexivity; [apply H4|rewrite Hg'; reflexivity|cbn [gof stack frs]; rewrite Hst; reflexivity| |].
    - rk_lia.
    - eapply evm_last; [apply H4|auto]. }
  assert (Hn : PW s (push_state PBlockMappingKey ;; parse_node true true) (PQ st s del lo g rk) (Mk_pst s4 sts PBlockMappingValue ms tds al)).
  { eapply push_ok; try eassumption; try reflexivity; [cbn [stack frs]; rewrite Hst; reflexivity|]. rk_lia. }
  destruct (t_data t2); first [exact Hs|exact Hn].
Qed.

Lemma flow_map_value_ok (empty : bool) st del lo g s sts x ms tds al :
  x = (if empty then PFlowMappingEmptyValue else PFlowMappingValue) ->
  OK st del lo g (parse_flow_mapping_value empty) (Mk_pst s sts x ms tds al).
Proof.
  intros Hx H. unfold parse_flow_mapping_value.
  assert (He : is_end x = false /\ mk x = 1%nat /\ weight x = 1%nat) by (rewrite Hx; destruct empty; auto). destruct He as (He & Hmk & Hw).
  destruct (inside _ _ _ _ _ _ _ _ _ _ H He Hmk) as [H0 C0].
  pose proof (pi_g _ _ _ _ _ H) as Hg. pose proof (pi_td _ _ _ _ _ H) as Ht. cbn [sc state states tag_directives] in *.
  assert (exists ds fs, g = GDoc ds (FVal :: fs) /\ stack sts = Some fs) as (ds & fs & Hg' & Hst).
  { rewrite Hx in Hg. destruct empty; cbn [gof stack frs] in Hg; destruct (stack sts) as [fs|]; try discriminate; cbn in Hg; injection Hg as Hg; eauto. }
  set (rk := rank (x :: sts)). assert (Hrk : rk = (1 + rank sts)%nat) by (subst rk; cbn [rank]; rewrite Hw; reflexivity). clearbody rk. unfold PW.
  apply wp_bind. eapply peek_r; [exact H0|]. intros t s1 H1.
  assert (HK : PW s (goto PFlowMappingKey ;; ret (empty_scalar (t_start t))) (PQ st s del lo g rk) (Mk_pst s1 sts x ms tds al)).
  { eapply stay_ok; try eassumption; try reflexivity; [apply H1|rewrite Hg'; reflexivity|cbn [gof stack frs]; rewrite Hst; reflexivity| |].
    - cbn. lia.
    - eapply evm_at; [exact H1|auto]. }
  destruct empty; [exact HK|].
  destruct (t_data t) eqn:Et; try exact HK; clear HK.
  apply wp_bind. eapply skip_r; [exact H1|fl|]. intros s3 H3.
  assert (C3 : cpre s sts ([] ++ [t]) ms) by (apply cpre_skip; [exact C0|fl]).
  apply wp_bind. eapply peek_r; [exact H3|]. intros t2 s4 H4.
  assert (Hs : PW s (goto PFlowMappingKey ;; ret (empty_scalar (t_start t2))) (PQ st s del lo g rk) (Mk_pst s4 sts x ms tds al)).
  { eapply stay_ok; try eassumption; try reflexivity; [apply H4|rewrite Hg'; reflexivity|cbn [gof stack frs]; rewrite Hst; reflexivity| |].
    - cbn. lia.
    - eapply evm_at; [exact H4|auto]. }
  assert (Hn : PW s (push_state PFlowMappingKey ;; parse_node false false) (PQ st s del lo g rk) (Mk_pst s4 sts x ms tds al)).
  { eapply push_ok; try eassumption; try reflexivity; [cbn [stack frs]; rewrite Hst; reflexivity|]. cbn. lia. }
  destruct (t_data t2); first [exact Hs|exact Hn].
Qed.

Lemma separator_ok st s0 del lo (first : bool) ctx pb ts t s sts x ms tds al (Q : token -> pst -> Prop) :
  At st s0 del lo ts t s -> cpre s0 sts ts ms ->
  (forall ts' t' s', At st s0 del lo ts' t' s' -> cpre s0 sts ts' ms -> (length ts' = length ts + if first then 0 else 1)%nat ->
     (first = true -> t' = t) -> Q t' (Mk_pst s' sts x ms tds al)) ->
  PW s0 (flow_separator first ctx pb t) Q (Mk_pst s sts x ms tds al).
Proof.
  intros H C K. unfold flow_separator, PW. destruct first.
  { apply wp_ret. eapply K; [exact H|exact C|lia|reflexivity]. }
  match goal with |- wp (match _ with TStreamStart _ => ?K | _ => _ end) _ _ _ _ => assert (HK : PW s0 K Q (Mk_pst s sts x ms tds al)) end.
  { destruct C as (C1 & C2 & C3). unfold PW. apply wp_bind. destruct ms as [|m ms]; [discriminate|].
    unfold pop_mark, wp. cbn [marks]. unfold set_marks. cbn. destruct (tok_at _ _ _ _ _ _ _ H) as (M1 & M2 & _).
    pose proof (mok_pos _ _ _ _ _ _ _ (at_sc _ _ _ _ _ _ _ H) C1) as Hm. inversion Hm; subst.
    eapply perr_parser; [apply (at_sc _ _ _ _ _ _ _ H)|assumption|eapply mark_le_trans; eassumption]. }
  destruct (t_data t) eqn:Et; try exact HK. clear HK.
  apply wp_bind. eapply skip_r; [exact H|fl|]. intros s3 H3. eapply peek_r; [exact H3|]. intros t2 s4 H4.
  eapply K; [exact H4|apply cpre_skip; [exact C|fl]|rewrite app_length; cbn; lia|discriminate].
Qed.

Lemma flow_seq_ok (first : bool) st del lo g s sts x ms tds al :
  x = (if first then PFlowSequenceFirstEntry else PFlowSequenceEntry) ->
  OK st del lo g (parse_flow_sequence_entry first) (Mk_pst s sts x ms tds al).
Proof.
  intros Hx H. unfold parse_flow_sequence_entry.
  collection_prelude first Hx H He Hg Ht ds fs Hg' Hst FSeq rk x sts st del lo g s ms tds al ts s1 ms1 H1 C1 L1.
  apply wp_bind. eapply peek_r; [exact H1|]. intros t s2 H2. clear s1 H1.
  match goal with |- wp (match _ with TStreamStart _ => ?K | _ => _ end) _ _ _ _ => assert (HK : PW s K (PQ st s del lo g rk) (Mk_pst s2 sts x ms1 tds al)) end.
  { unfold PW. apply wp_bind. eapply separator_ok; [exact H2|exact C1|]. intros ts' t' s' H3 C3 L3 _.
    assert (L4 : length ts' = 1%nat) by (destruct first; lia). clear L1 L3 H2 C1.
    assert (Hn : PW s (push_state PFlowSequenceEntry ;; parse_node false false) (PQ st s del lo g rk) (Mk_pst s' sts x ms1 tds al)).
    { eapply push_ok; try eassumption; try reflexivity; [cbn [stack frs]; rewrite Hst; reflexivity|]. rk_lia. }
    destruct (t_data t') eqn:Et; try exact Hn; clear Hn.
    - eapply leave_ok; try eassumption; try fl; [reflexivity|rewrite Hg'; reflexivity|]. rk_lia.
    - apply wp_bind. unfold goto. apply wp_modify. unfold set_state. cbn [sc states state marks tag_directives aliases].
      apply wp_bind. eapply skip_r; [exact H3|fl|]. intros s3 H5. apply wp_ret. destruct (cpre_skip _ _ _ _ _ C3 ltac:(instantiate (1 := t'); fl)) as (A1 & A2 & A3).
      eapply (plain_leaf st s del lo g rk (ts' ++ [t']) s3 _ _ _ _ _ _ _ _ (GDoc ds (FKey :: FSeq :: fs))); auto.
      + rewrite Hg'. reflexivity.
      + cbn [gof stack frs]. rewrite Hst. reflexivity.
      + rewrite Hg' in Ht. exact Ht.
      + rk_lia.
      + eapply evm_last; [exact H5|auto]. }
  destruct (t_data t) eqn:Et; try exact HK; clear HK.
  eapply leave_ok; try eassumption; try fl; [reflexivity|rewrite Hg'; reflexivity|]. rk_lia.
Qed.

Lemma flow_map_key_ok (first : bool) st del lo g s sts x ms tds al :
  x = (if first then PFlowMappingFirstKey else PFlowMappingKey) ->
  OK st del lo g (parse_flow_mapping_key first) (Mk_pst s sts x ms tds al).
Proof.
  intros Hx H. unfold parse_flow_mapping_key.
  collection_prelude first Hx H He Hg Ht ds fs Hg' Hst FKey rk x sts st del lo g s ms tds al ts s1 ms1 H1 C1 L1.
  apply wp_bind. eapply peek_r; [exact H1|]. intros t s2 H2. clear s1 H1.
  match goal with |- wp (match _ with TStreamStart _ => ?K | _ => _ end) _ _ _ _ => assert (HK : PW s K (PQ st s del lo g rk) (Mk_pst s2 sts x ms1 tds al)) end.
  { unfold PW. apply wp_bind. eapply separator_ok; [exact H2|exact C1|]. intros ts' t' s' H3 C3 L3 _.
    assert (L4 : length ts' = 1%nat) by (destruct first; lia). clear L1 L3 H2 C1.
    assert (Hn : PW s (push_state PFlowMappingEmptyValue ;; parse_node false false) (PQ st s del lo g rk) (Mk_pst s' sts x ms1 tds al)).
    { eapply push_ok; try eassumption; try reflexivity; [cbn [stack frs]; rewrite Hst; reflexivity|]. rk_lia. }
    destruct (t_data t') eqn:Et; try exact Hn; clear Hn.
    - eapply leave_ok; try eassumption; try fl; [reflexivity|rewrite Hg'; reflexivity|]. rk_lia.
    - apply wp_bind. eapply skip_r; [exact H3|fl|]. intros s3 H5. assert (C5 : cpre s sts (ts' ++ [t']) ms1) by (apply cpre_skip; [exact C3|fl]).
      apply wp_bind. eapply peek_r; [exact H5|]. intros t2 s4 H4.
      assert (Hs : PW s (goto PFlowMappingValue ;; ret (empty_scalar (t_start t2))) (PQ st s del lo g rk) (Mk_pst s4 sts x ms1 tds al)).
      { eapply stay_ok; try eassumption; try reflexivity; [apply H4|rewrite Hg'; reflexivity|cbn [gof stack frs]; rewrite Hst; reflexivity| |].
        - rk_lia.
        - eapply evm_at; [exact H4|auto]. }
      assert (Hn : PW s (push_state PFlowMappingValue ;; parse_node false false) (PQ st s del lo g rk) (Mk_pst s4 sts x ms1 tds al)).
      { eapply push_ok; try eassumption; try reflexivity; [cbn [stack frs]; rewrite Hst; reflexivity|]. rk_lia. }
      destruct (t_data t2); first [exact Hs|exact Hn]. }
  destruct (t_data t) eqn:Et; try exact HK; clear HK.
  eapply leave_ok; try eassumption; try fl; [reflexivity|rewrite Hg'; reflexivity|]. rk_lia.
Qed.
