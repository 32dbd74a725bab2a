(** ParserWalk.v -- one call of the parser, state by state. *)
From Coq Require Import ZifyBool ZifyNat ZifyN.
From Verif Require Import Base Utf Chars State Reader Scanner Parser Api Wp ReaderFacts Spec_Tokens ScanFacts TokFacts FetchFacts FetchWp FetchLoop FlowFacts Spec_Scanner SessionFacts Spec_Events EventFacts ParserFacts.

Lemma gstep_node ds fs fs' d : after fs = Some fs' ->
  match d with
  | EvAlias _ | EvScalar _ _ _ _ _ _ => gstep (GDoc ds fs) d = Some (GDoc ds fs')
  | EvSequenceStart _ _ _ _ => gstep (GDoc ds fs) d = Some (GDoc ds (FSeq :: fs'))
  | EvMappingStart _ _ _ _ => gstep (GDoc ds fs) d = Some (GDoc ds (FKey :: fs'))
  | _ => True
  end.
Proof. intros H. destruct fs as [|[] [|]]; try discriminate H; injection H as <-; destruct d; reflexivity || exact I. Qed.

(** Marks of collections: from before this call, or of a token consumed by it. *)
Definition mok (s0 : sst) (ts : list token) (ms : list mark) : Prop :=
  Forall (fun m => mark_le m (pos s0) \/ In m (map t_start ts)) ms.
Lemma mok_app s0 ts l ms : mok s0 ts ms -> mok s0 (ts ++ l) ms.
Proof. apply Forall_impl. intros m [H|H]; [auto|]. right. rewrite map_app. apply in_or_app. auto. Qed.
Lemma mok_pos st s0 del lo ts s ms : Sc st s0 del lo ts s -> mok s0 ts ms -> Forall (fun m => mark_le m (pos s)) ms.
Proof.
  intros H. apply Forall_impl. intros m [Hm|Hm].
  - eapply mark_le_trans; [exact Hm|apply H].
  - apply in_map_iff in Hm. destruct Hm as (t & <- & Hin). destruct (ordered_in _ _ _ t (sc_ord _ _ _ _ _ _ H) Hin) as [H1 H2].
    eapply mark_le_trans; eassumption.
Qed.
Lemma mok_tl s0 ts ms : mok s0 ts ms -> mok s0 ts (tl ms).
Proof. intros H. destruct H; [constructor|assumption]. Qed.

Lemma pop_r s sts x ms tds al fs (Q : unit -> pst -> Prop) E P : stack sts = Some fs ->
  (forall y r, sts = y :: r -> Q tt (Mk_pst s r y ms tds al)) -> wp pop_state Q E P (Mk_pst s sts x ms tds al).
Proof. intros H K. destruct sts as [|y r]; [discriminate|]. unfold pop_state, wp. cbn. apply K. reflexivity. Qed.

Lemma tok_in st s0 del lo ts s t : Sc st s0 del lo ts s -> In t ts -> mark_le (t_start t) (t_end t) /\ mark_le (t_end t) (pos s).
Proof. intros H Hin. apply (ordered_in _ _ _ t (sc_ord _ _ _ _ _ _ H) Hin). Qed.
Lemma tok_at st s0 del lo ts t s : At st s0 del lo ts t s ->
  mark_le (t_start t) (t_end t) /\ mark_le (t_end t) (pos s) /\ mark_le lo (t_start t) /\ forall u, In u ts -> mark_le (t_end u) (t_start t) /\ mark_le (t_start u) (t_end u) /\ mark_le lo (t_start u).
Proof.
  intros H. pose proof (at_ord _ _ _ _ _ _ _ H) as Ho. destruct (ordered_in _ _ _ t Ho) as [H1 H2]; [apply in_or_app; right; left; reflexivity|].
  split; [exact H1|]. split; [exact H2|]. split; [eapply ordered_after, Ho|]. intros u Hu. apply in_split in Hu. destruct Hu as (a & b & ->).
  assert (Ho' : ordered lo (a ++ u :: b ++ [t]) (pos s)) by (rewrite <- app_assoc in Ho; exact Ho).
  split; [eapply (ordered_pair _ a u b t []), Ho'|].
  split; [eapply ordered_in; [exact Ho'|apply in_or_app; right; left; reflexivity]|]. eapply ordered_after, Ho'.
Qed.
Lemma perr_parser st s0 del lo ts s a b c d f ctx cm pb pm : Sc st s0 del lo ts s ->
  mark_le cm (pos s) -> mark_le pm (pos s) -> perr s0 (EParser ctx cm pb pm) (Mk_pst s a b c d f).
Proof.
  intros H H1 H2. destruct (sc_prog _ _ _ _ _ _ H). constructor; cbn [sc]; auto.
  - cbn [error_marks]. repeat apply Forall_cons; auto.
  - intros Hu. specialize (pg_idx Hu). lia.
Qed.
Lemma mark0_le m : mark_le mark0 m.
Proof. unfold mark_le, mark0. cbn. lia. Qed.

Section walk.
  Variables (st s0 : sst) (del : list token) (lo : mark) (g : gstate) (rk : nat).
  Notation ScS := (Sc st s0 del lo). Notation AtS := (At st s0 del lo).
  Notation Post := (PQ st s0 del lo g rk).

  Lemma peek_first {A} (k : token -> M pst A) ts s a b c d f Q : ScS ts s ->
    (forall t s', AtS ts t s' -> PW s0 (bind ppeek k) Q (Mk_pst s' a b c d f)) ->
    PW s0 (bind ppeek k) Q (Mk_pst s a b c d f).
  Proof.
    intros H K. apply wp_bind. apply (peek_r st s0 del lo ts); [exact H|]. intros t s' Hat. specialize (K t s' Hat).
    unfold PW in K. apply wp_bind_inv in K. unfold wp in K at 1. unfold ppeek, on_sc in K. cbn [sc] in K.
    destruct Hat as [_ Ha (r & Ht) _]. unfold peek in K. unfold bind at 1 2 3 in K. unfold get at 1 2 in K. rewrite Ha in K.
    unfold ret at 1 in K. rewrite Ha in K. cbn [negb] in K. rewrite Ht in K. exact K.
  Qed.

  (** [parse_properties] *)
  Definition props (t : token) (ts l : list token) (anchor : option str) (htag : option (str * str)) (sm em tm : mark) : Prop :=
    (l = [] /\ anchor = None /\ htag = None /\ sm = t_start t /\ em = t_start t /\ tm = mark0) \/
    exists u, In u l /\ sm = t_start t /\ em = t_end u /\ l <> [] /\ hd t l = t /\ last l t = u /\
      anchors l = opt_list anchor /\ tags l = opt_list htag /\ aliases_in l = [] /\ scalars l = [] /\ versions l = [] /\
      tag_dirs l = [] /\ doc_starts l = 0%nat /\ Forall (fun t => match t_data t with TStreamStart _ => False | _ => True end) l /\
      (tm = mark0 \/ In tm (map t_start l)) /\ (anchor <> None \/ htag <> None).
  Lemma props_ok ts t s a b c d f : AtS ts t s ->
    PW s0 (parse_properties t) (fun r p' => let '(anchor, htag, sm, em, tm) := r in
       exists l s', p' = Mk_pst s' a b c d f /\ ScS (ts ++ l) s' /\ (l = [] -> s' = s) /\ props t ts l anchor htag sm em tm) (Mk_pst s a b c d f).
  Proof.
    intros H. unfold parse_properties, PW.
    assert (H0 : wp (ret (None, None, t_start t, t_start t, mark0)) (fun r p' => let '(anchor, htag, sm, em, tm) := r in
       exists l s', p' = Mk_pst s' a b c d f /\ ScS (ts ++ l) s' /\ (l = [] -> s' = s) /\ props t ts l anchor htag sm em tm) (perr s0) (fpanic s0) (Mk_pst s a b c d f)).
    { apply wp_ret. exists [], s. rewrite app_nil_r. split; [reflexivity|]. split; [apply H|]. split; [reflexivity|]. left. auto 10. }
    destruct (t_data t) eqn:Et; try exact H0.
    - (* anchor *)
      apply wp_bind. eapply skip_r; [exact H|unfold is_stream_end; rewrite Et; reflexivity|]. intros s1 H1.
      apply wp_bind. eapply peek_r; [exact H1|]. intros t2 s2 H2.
      assert (Hd : PW s0 (ret (Some value, None, t_start t, t_end t, mark0)) (fun r p' => let '(anchor, htag, sm, em, tm) := r in
         exists l s', p' = Mk_pst s' a b c d f /\ ScS (ts ++ l) s' /\ (l = [] -> s' = s) /\ props t ts l anchor htag sm em tm) (Mk_pst s2 a b c d f)).
      { apply wp_ret. exists [t], s2. split; [reflexivity|]. split; [apply H2|]. split; [discriminate|]. right. exists t.
        unfold anchors, tags, aliases_in, scalars, versions, tag_dirs, doc_starts. cbn [flat_map filter In hd last]. rewrite Et. cbn [app opt_list length].
        repeat (split; [solve [auto | discriminate]|]). split; [|split; [auto|left; discriminate]]. constructor; [rewrite Et; exact I|constructor]. }
      destruct (t_data t2) eqn:Et2; try exact Hd.
      apply wp_bind. eapply skip_r; [exact H2|unfold is_stream_end; rewrite Et2; reflexivity|]. intros s3 H3.
      apply wp_ret. exists [t; t2], s3. split; [reflexivity|]. split; [rewrite <- app_assoc in H3; exact H3|]. split; [discriminate|]. right. exists t2.
      unfold anchors, tags, aliases_in, scalars, versions, tag_dirs, doc_starts. cbn [flat_map filter In hd last]. rewrite Et, Et2. cbn [app opt_list length].
      repeat (split; [solve [auto | discriminate]|]). split; [|split; [right; cbn; auto|left; discriminate]].
      constructor; [rewrite Et; exact I|constructor; [rewrite Et2; exact I|constructor]].
    - (* tag *)
      apply wp_bind. eapply skip_r; [exact H|unfold is_stream_end; rewrite Et; reflexivity|]. intros s1 H1.
      apply wp_bind. eapply peek_r; [exact H1|]. intros t2 s2 H2.
      assert (Hd : PW s0 (ret (None, Some (handle, suffix), t_start t, t_end t, t_start t)) (fun r p' => let '(anchor, htag, sm, em, tm) := r in
         exists l s', p' = Mk_pst s' a b c d f /\ ScS (ts ++ l) s' /\ (l = [] -> s' = s) /\ props t ts l anchor htag sm em tm) (Mk_pst s2 a b c d f)).
      { apply wp_ret. exists [t], s2. split; [reflexivity|]. split; [apply H2|]. split; [discriminate|]. right. exists t.
        unfold anchors, tags, aliases_in, scalars, versions, tag_dirs, doc_starts. cbn [flat_map filter In hd last]. rewrite Et. cbn [app opt_list length].
        repeat (split; [solve [auto | discriminate]|]). split; [|split; [right; cbn; auto|right; discriminate]]. constructor; [rewrite Et; exact I|constructor]. }
      destruct (t_data t2) eqn:Et2; try exact Hd.
      apply wp_bind. eapply skip_r; [exact H2|unfold is_stream_end; rewrite Et2; reflexivity|]. intros s3 H3.
      apply wp_ret. exists [t; t2], s3. split; [reflexivity|]. split; [rewrite <- app_assoc in H3; exact H3|]. split; [discriminate|]. right. exists t2.
      unfold anchors, tags, aliases_in, scalars, versions, tag_dirs, doc_starts. cbn [flat_map filter In hd last]. rewrite Et, Et2. cbn [app opt_list length].
      repeat (split; [solve [auto | discriminate]|]). split; [|split; [right; cbn; auto|left; discriminate]].
      constructor; [rewrite Et; exact I|constructor; [rewrite Et2; exact I|constructor]].
  Qed.

  Lemma props_facts ts t l anchor htag sm em tm : props t ts l anchor htag sm em tm ->
    anchors l = opt_list anchor /\ tags l = opt_list htag /\ aliases_in l = [] /\ scalars l = [] /\ versions l = [] /\
    tag_dirs l = [] /\ doc_starts l = 0%nat /\ Forall (fun t => match t_data t with TStreamStart _ => False | _ => True end) l.
  Proof. intros [(-> & -> & -> & _)|(u & _ & _ & _ & _ & _ & _ & H)]; [cbn; auto 10|]. repeat (split; [apply H|]). apply H. Qed.

  Definition tagrel (ds : list tag_directive) (htag : option (str * str)) (tag : option str) : Prop :=
    match htag with
    | None => tag = None
    | Some (h, s) => tag = resolved ds h s /\ tag <> None /\ tag <> Some []
    end.
  Lemma explains_node ds t ts l x d anchor htag tag sm em tm : forallb silent ts = true ->
    props t ts l anchor htag sm em tm -> tagrel ds htag tag -> anchor_of d = anchor -> tag_of d = tag ->
    (x = [] \/ exists u v sty, x = [u] /\ t_data u = TScalar v sty) ->
    match d with
    | EvScalar _ t v pi qi st =>
        (scalars x = [(v, st)] /\ (pi = true <-> st = SPlain /\ t = None \/ t = Some (lit "!"))
         /\ (qi = true <-> st <> SPlain /\ t = None))
        \/ (scalars x = [] /\ v = [] /\ st = SPlain /\ (pi = true <-> t = None) /\ qi = false)
    | EvSequenceStart _ t i _ | EvMappingStart _ t i _ => scalars x = [] /\ (i = true <-> t = None)
    | _ => False
    end -> explains ds (ts ++ l ++ x) d.
  Proof.
    intros Hs Hp Ht Ha Hg Hx Hd. apply explains_silent; [exact Hs|destruct d; auto; contradiction|].
    destruct (props_facts _ _ _ _ _ _ _ _ Hp) as (P1 & P2 & P3 & P4 & P5 & P6 & P7 & P8).
    assert (X : anchors x = [] /\ tags x = [] /\ aliases_in x = [] /\ versions x = [] /\ tag_dirs x = [] /\ doc_starts x = 0%nat /\
       Forall (fun t => match t_data t with TStreamStart _ => False | _ => True end) x).
    { destruct Hx as [->|(u & v & sty & -> & Eu)]; [cbn; auto 10|].
      unfold anchors, tags, aliases_in, versions, tag_dirs, doc_starts. cbn [flat_map filter]. rewrite Eu. cbn.
      repeat (split; [reflexivity|]). constructor; [rewrite Eu; exact I|constructor]. }
    destruct X as (X1 & X2 & X3 & X4 & X5 & X6 & X7).
    constructor.
    - unfold anchors in *. rewrite flat_map_app, P1, X1, app_nil_r, Ha. reflexivity.
    - unfold aliases_in in *. rewrite flat_map_app, P3, X3. destruct d; try contradiction; reflexivity.
    - unfold tags in *. rewrite flat_map_app, P2, X2, app_nil_r, Hg. unfold tagrel in Ht. destruct htag as [[h sf]|]; cbn [opt_list]; tauto.
    - assert (scalars (l ++ x) = scalars x) as ->; [|destruct d; try contradiction; exact Hd].
      unfold scalars in *. rewrite flat_map_app, P4. reflexivity.
    - unfold versions in *. rewrite flat_map_app, P5, X4. destruct d; try contradiction; reflexivity.
    - unfold tag_dirs in *. rewrite flat_map_app, P6, X5. destruct d; try contradiction; reflexivity.
    - unfold doc_starts in *. rewrite filter_app, app_length. rewrite P7, X6. destruct d; try contradiction; reflexivity.
    - destruct d; try contradiction; apply Forall_app; split; assumption.
  Qed.

  Lemma resolve_r ds fs ts l s a b c d f htag sm tm (Q : option str -> pst -> Prop) : g = GDoc ds fs -> tdok g d -> ScS (ts ++ l) s ->
    tags l = opt_list htag -> mark_le sm (pos s) -> mark_le tm (pos s) ->
    (forall tag, tagrel ds htag tag -> Q tag (Mk_pst s a b c d f)) ->
    PW s0 (resolve_tag htag sm tm) Q (Mk_pst s a b c d f).
  Proof.
    intros -> Htd H Ht H1 H2 K. unfold resolve_tag, PW. apply wp_bind, wp_get.
    destruct htag as [[h sf]|]; [|apply wp_ret, K; reflexivity].
    assert (Hsf : sf <> []).
    { pose proof (si_W _ _ _ (sc_inv _ _ _ _ _ _ H)) as HW. unfold all in HW. rewrite !Forall_app in HW. destruct HW as [[_ [_ HW]] _].
      assert (Hin : In (h, sf) (tags l)) by (rewrite Ht; left; reflexivity). unfold tags in Hin. apply in_flat_map in Hin.
      destruct Hin as (u & Hu & Hin). rewrite Forall_forall in HW. specialize (HW u Hu). destruct (t_data u); try contradiction.
      destruct Hin as [[= -> ->]|[]]. apply HW. }
    cbn [tdok] in Htd. cbn [tag_directives]. rewrite Htd. unfold tagrel, resolved in K. destruct (is_empty h) eqn:Eh.
    - apply wp_ret, K. split; [reflexivity|]. split; [discriminate|]. congruence.
    - destruct (find (handle_is h) (ds ++ default_tag_directives)) as [td|] eqn:Ef.
      + apply wp_ret, K. split; [reflexivity|]. split; [discriminate|]. intros [= E]. apply app_eq_nil in E. tauto.
      + apply wp_fail. eapply perr_parser; eassumption.
  Qed.

  (** [parse_node], started with the tokens [ts] consumed and [t] next. *)
  Lemma node_ok (block ind : bool) ds fs fs' ts t s sts x ms tds al :
    AtS ts t s -> forallb silent ts = true -> g = GDoc ds fs -> after fs = Some fs' -> stack sts = Some fs' ->
    length ms = nmarks sts -> mok s0 ts ms -> tdok g tds ->
    (rank sts + 1 + (if ind then 1 else 0) <= rk + 4 * length ts)%nat ->
    PW s0 (parse_node block ind) Post (Mk_pst s sts x ms tds al).
  Proof.
    intros H Hsil Hg Haf Hst Hms Hmok Htd Hrk. unfold parse_node, PW. apply wp_bind. apply (peek_at _ _ _ _ _ _ _ _ _ _ _ _ _ _ _ H).
    assert (Hds : ds_of g = ds) by (rewrite Hg; reflexivity).
    assert (HK : PW s0 (parse_node_content block ind t) Post (Mk_pst s sts x ms tds al)).
    2:{ destruct (t_data t) eqn:Et; try exact HK. clear HK. destruct (tok_at _ _ _ _ _ _ _ H) as (M1 & M2 & M3 & _).
        apply wp_bind. eapply pop_r; [exact Hst|]. intros y r ->. apply wp_bind.
        eapply skip_r; [exact H|unfold is_stream_end; rewrite Et; reflexivity|]. intros s1 H1. apply wp_ret.
        destruct (stack_gof y r fs' ds Hst) as (S1 & S2 & S3).
        assert (In t (ts ++ [t])) as Hin by (apply in_or_app; right; left; reflexivity). destruct (tok_in _ _ _ _ _ _ _ H1 Hin) as [_ M4].
        apply (leaf_sc st s0 del lo g rk (ts ++ [t]) s1 _ _ _ _ _ _ (GDoc ds fs')); cbn [e_data e_start e_end ds_of]; auto.
        - apply explains_silent; [exact Hsil|reflexivity|]. constructor; unfold anchors, tags, aliases_in, scalars, versions, tag_dirs, doc_starts; cbn [flat_map filter]; rewrite ?Et; cbn; auto.
          constructor; [rewrite Et; exact I|constructor].
        - exact I.
        - rewrite Hg. apply (gstep_node ds fs fs' (EvAlias value) Haf).
        - eapply mok_pos; [exact H1|]. apply mok_app, Hmok.
        - unfold first_ok. rewrite S3. exact I.
        - rewrite Hg in Htd. exact Htd.
        - rewrite app_length. cbn [length]. destruct ind; lia.
        - right. eauto. }
    unfold parse_node_content, PW. apply wp_bind. eapply wp_conseq; [apply (props_ok ts t s), H| |auto|auto].
    intros [[[[anchor htag] sm] em] tm] p1 (l & s1 & -> & H1 & Heq & Hp). cbv beta iota.
    pose proof (props_facts _ _ _ _ _ _ _ _ Hp) as (P1 & P2 & P3 & P4 & P5 & P6 & P7 & P8).
    destruct (tok_at _ _ _ _ _ _ _ H) as (M1 & M2 & M3 & M4).
    assert (Hall : forall u, In u l -> In u (ts ++ l)) by (intros; apply in_or_app; auto).
    assert (Hsm : mark_le sm (pos s1) /\ mark_le tm (pos s1)).
    { destruct Hp as [(-> & _ & _ & -> & _ & ->)|(u & Hu & -> & -> & Hl & Hhd & Hla & Hrest)].
      - split; [|apply mark0_le]. rewrite (Heq eq_refl). eapply mark_le_trans; eassumption.
      - assert (Hin : In t l) by (destruct l; [contradiction|]; cbn in Hhd; subst; left; reflexivity).
        destruct (tok_in _ _ _ _ _ _ _ H1 (Hall _ Hin)) as [T1 T2]. split; [eapply mark_le_trans; eassumption|].
        destruct Hrest as (_ & _ & _ & _ & _ & _ & _ & _ & [->|Hr] & _); [apply mark0_le|].
        apply in_map_iff in Hr. destruct Hr as (v & <- & Hv). destruct (tok_in _ _ _ _ _ _ _ H1 (Hall _ Hv)). eapply mark_le_trans; eassumption. }
    apply wp_bind. apply (resolve_r ds fs ts l s1 _ _ _ _ _ _ _ _ _ Hg Htd H1 P2 (proj1 Hsm) (proj2 Hsm)).
    intros tag Htag. cbv beta. apply wp_bind.
    match goal with |- wp ppeek ?Q _ _ _ => assert (HQ : forall t3 s3, AtS (ts ++ l) t3 s3 -> (l = [] -> t3 = t) -> Q t3 (Mk_pst s3 sts x ms tds al)) end.
    2:{ destruct l as [|l0 l1].
        - rewrite (Heq eq_refl). eapply peek_at; [exact H|]. apply HQ; [rewrite app_nil_r; exact H|reflexivity].
        - apply (peek_r st s0 del lo (ts ++ l0 :: l1)); [exact H1|]. intros t3 s3 H3. apply HQ; [exact H3|discriminate]. }
    clear s1 H1 Heq Hsm. intros t3 s3 H3 Hl3. cbv beta zeta.
    destruct (tok_at _ _ _ _ _ _ _ H3) as (N1 & N2 & N3 & N4). pose proof (at_sc _ _ _ _ _ _ _ H3) as H3'.
    (* the start of the event *)
    assert (Hst3 : mark_le lo sm /\ mark_le sm (t_start t3) /\ (l <> [] -> mark_le sm em /\ mark_le em (t_start t3) /\ exists l' u, ts ++ l = l' ++ [u] /\ mark_le sm (t_end u))
                   /\ (l = [] -> anchor = None /\ htag = None) /\ (l <> [] -> anchor <> None \/ htag <> None)).
    { destruct Hp as [(-> & -> & -> & -> & -> & ->)|(u & Hu & -> & -> & Hl & Hhd & Hla & Hrest)].
      - rewrite (Hl3 eq_refl) in *. split; [exact M3|]. split; [apply mark_le_refl|]. split; [congruence|]. split; [auto|congruence].
      - assert (Hin : In t l) by (destruct l; [contradiction|]; cbn in Hhd; subst; left; reflexivity).
        destruct (N4 t (Hall _ Hin)) as (A1 & A2 & A3). destruct (N4 u (Hall _ Hu)) as (B1 & B2 & B3).
        assert (Htu : mark_le (t_start t) (t_end u)).
        { destruct l as [|l0 l1]; [contradiction|]. cbn in Hhd. subst l0. destruct l1 as [|l1 l2 _] using rev_ind.
          - cbn in Hla. subst u. exact A2.
          - assert (u = l1) as -> by (rewrite <- Hla; change (t :: l2 ++ [l1]) with ((t :: l2) ++ [l1]); apply last_last).
            pose proof (sc_ord _ _ _ _ _ _ H3') as Ho. apply ordered_pair in Ho.
            eapply mark_le_trans; [exact A2|]. eapply mark_le_trans; [exact Ho|exact B2]. }
        split; [exact A3|]. split; [eapply mark_le_trans; [exact Htu|exact B1]|]. split; [|split; [congruence|]].
        + intros _. split; [exact Htu|]. split; [exact B1|]. destruct l as [|l1 l2 _] using rev_ind; [contradiction|].
          rewrite last_last in Hla. subst l1. exists (ts ++ l2), u. rewrite app_assoc. auto.
        + intros _. apply Hrest. }
    destruct Hst3 as (L1 & L2 & L3 & L4 & L5).
    assert (Himp : forall b, (is_none tag || opt_is tag [] = b) -> (b = true <-> tag = None)).
    { intros b <-. unfold tagrel in Htag. destruct tag as [x0|]; cbn; [|tauto]. split; [|discriminate].
      destruct x0; cbn; [|discriminate]. intros _. destruct htag as [[h sf]|]; [|discriminate]. tauto. }
    set (imp := is_none tag || opt_is tag []) in *. specialize (Himp imp eq_refl).
    assert (Hml : Forall (fun m => mark_le m (pos s3)) ms) by (eapply mok_pos; [exact H3'|apply mok_app, Hmok]).
    assert (HF : PW s0 (if negb (is_none anchor) || negb (is_none tag) then
          pop_state ;; ret (Mk_event (EvScalar anchor tag [] imp false SPlain) sm em)
        else fail (EParser (if block then "while parsing a block node" else "while parsing a flow node")%string
                    sm "did not find expected node content" (t_start t3))) Post (Mk_pst s3 sts x ms tds al)).
    { destruct (negb (is_none anchor) || negb (is_none tag)) eqn:Eo.
      - assert (Hl : l <> []).
        { intros ->. destruct (L4 eq_refl) as [-> ->]. cbn in Htag. subst tag. discriminate. }
        destruct (L3 Hl) as (L6 & L7 & L8). apply wp_bind. eapply pop_r; [exact Hst|]. intros y r ->. apply wp_ret.
        destruct (stack_gof y r fs' ds Hst) as (S1 & S2 & S3).
        apply (leaf_sc st s0 del lo g rk (ts ++ l) s3 _ _ _ _ _ _ (GDoc ds fs')); cbn [e_data e_start e_end ds_of]; auto.
        + rewrite <- (app_nil_r l), Hds. eapply explains_node; try eassumption; try reflexivity; [left; reflexivity|]. right. auto.
        + exact I.
        + rewrite Hg. apply (gstep_node ds fs fs' (EvScalar anchor tag [] imp false SPlain) Haf).
        + unfold first_ok. rewrite S3. exact I.
        + rewrite Hg in Htd. exact Htd.
        + rewrite app_length. destruct ind; lia.
        + eapply mark_le_trans; [exact L7|]. eapply mark_le_trans; eassumption.
      - apply wp_fail. eapply perr_parser; [exact H3'| |]; [eapply mark_le_trans; [exact L2|]|]; eapply mark_le_trans; eassumption. }
    assert (Hgo : forall y d, first_tok y = None \/ first_tok y = Some (t_data t3) -> is_end y = false -> mk y = 0%nat ->
      (weight y <= if ind then 1 else 0)%nat ->
      match d with EvSequenceStart a tg i _ => a = anchor /\ tg = tag /\ i = imp /\ gof y sts ds = Some (GDoc ds (FSeq :: fs'))
        | EvMappingStart a tg i _ => a = anchor /\ tg = tag /\ i = imp /\ gof y sts ds = Some (GDoc ds (FKey :: fs')) | _ => False end ->
      PW s0 (goto y ;; ret (Mk_event d sm (t_end t3))) Post (Mk_pst s3 sts x ms tds al)).
    { intros y d Hf He Hmk Hw Hd. unfold PW. apply wp_bind. unfold goto. apply wp_modify. apply wp_ret. unfold set_state. cbn [sc states marks tag_directives aliases].
      assert (exists f, gstep g d = Some (GDoc ds (f :: fs')) /\ gof y sts ds = Some (GDoc ds (f :: fs'))) as (ff & G1 & G2).
      { rewrite Hg. pose proof (gstep_node ds fs fs' d Haf) as Hgs. destruct d; try contradiction; [exists FSeq|exists FKey]; (split; [exact Hgs|apply Hd]). }
      apply (leaf_sc st s0 del lo g rk (ts ++ l) s3 _ _ _ _ _ _ (GDoc ds (ff :: fs'))); cbn [e_data e_start e_end ds_of]; auto.
      + rewrite <- (app_nil_r l), Hds. eapply explains_node; try eassumption; [destruct d; try contradiction; apply Hd..|left; reflexivity|].
        destruct d; try contradiction; (split; [reflexivity|]); destruct Hd as (_ & -> & -> & _); exact Himp.
      + destruct d; try contradiction; exact I.
      + cbn [nmarks]. rewrite Hmk. exact Hms.
      + unfold first_ok. destruct Hf as [->| ->]; [exact I|]. split; [apply H3|]. destruct (at_tok _ _ _ _ _ _ _ H3) as (r & Hr). eauto.
      + rewrite Hg in Htd. exact Htd.
      + cbn [rank]. rewrite app_length. destruct ind; lia.
      + eapply mark_le_trans; [exact L2|exact N1].
      + left. split; [apply H3|]. destruct (at_tok _ _ _ _ _ _ _ H3) as (r & Hr). eauto. }
    destruct (t_data t3) eqn:Et3; try exact HF.
    - (* block sequence *)
      destruct block; [|exact HF]. apply Hgo; [right; reflexivity|reflexivity|reflexivity|apply Nat.le_0_l|cbn [gof]; rewrite Hst; auto].
    - destruct block; [|exact HF]. apply Hgo; [right; reflexivity|reflexivity|reflexivity|apply Nat.le_0_l|cbn [gof]; rewrite Hst; auto].
    - apply Hgo; [right; reflexivity|reflexivity|reflexivity|apply Nat.le_0_l|cbn [gof]; rewrite Hst; auto].
    - apply Hgo; [right; reflexivity|reflexivity|reflexivity|apply Nat.le_0_l|cbn [gof]; rewrite Hst; auto].
    - destruct ind; [|exact HF]. apply Hgo; [left; reflexivity|reflexivity|reflexivity|apply Nat.le_refl|cbn [gof stack frs]; rewrite Hst; auto].
    - (* scalar *)
      apply wp_bind. eapply pop_r; [exact Hst|]. intros y r ->. apply wp_bind.
      eapply skip_r; [exact H3|unfold is_stream_end; rewrite Et3; reflexivity|]. intros s4 H4. apply wp_ret.
      destruct (stack_gof y r fs' ds Hst) as (S1 & S2 & S3).
      assert (In t3 ((ts ++ l) ++ [t3])) as Hin by (apply in_or_app; right; left; reflexivity). destruct (tok_in _ _ _ _ _ _ _ H4 Hin) as [_ M9].
      apply (leaf_sc st s0 del lo g rk ((ts ++ l) ++ [t3]) s4 _ _ _ _ _ _ (GDoc ds fs')); cbn [e_data e_start e_end ds_of]; auto.
      + rewrite <- app_assoc, Hds. eapply explains_node; try eassumption; try reflexivity; [right; eauto|]. left.
        unfold scalars. cbn [flat_map]. rewrite Et3. split; [reflexivity|].
        assert (Hb : opt_is tag (lit "!") = true <-> tag = Some (lit "!")).
        { unfold opt_is. destruct tag as [x0|]; [|split; discriminate]. clear. split.
          - revert x0. generalize (lit "!"). intros y0 x0. revert y0. induction x0 as [|c x0 IH]; intros [|d y0]; cbn; try discriminate; [reflexivity|].
            intros H. apply andb_true_iff in H. destruct H as [H1 H2]. apply N.eqb_eq in H1. specialize (IH _ H2). congruence.
          - intros [= ->]. reflexivity. }
        assert (Hs : style_eqb style SPlain = true <-> style = SPlain) by (destruct style; cbn; split; congruence).
        assert (Hn : is_none tag = true <-> tag = None) by (destruct tag; cbn; split; congruence).
        split.
        * rewrite orb_true_iff, andb_true_iff, Hb, Hs, Hn. reflexivity.
        * rewrite andb_true_iff, Hn, negb_true_iff, orb_false_iff. rewrite andb_false_iff. split.
          { intros ((Hx & _) & ->). split; [|reflexivity]. intros ->. destruct Hx; discriminate. }
          { intros (Hx & ->). split; [|reflexivity]. split; [left; destruct style; auto; contradiction|reflexivity]. }
      + exact I.
      + rewrite Hg. apply (gstep_node ds fs fs' (EvScalar anchor tag value _ _ style) Haf).
      + eapply mok_pos; [exact H4|]. rewrite <- app_assoc. apply mok_app, Hmok.
      + unfold first_ok. rewrite S3. exact I.
      + rewrite Hg in Htd. exact Htd.
      + rewrite !app_length. cbn [length]. destruct ind; lia.
      + eapply mark_le_trans; [exact L2|exact N1].
      + right. exists (ts ++ l), t3. split; [reflexivity|]. eapply mark_le_trans; [exact L2|exact N1].
  Qed.

  (** ** The other functions *)
  Definition evm (ts : list token) (s : sst) (a b : mark) : Prop :=
    mark_le lo a /\ mark_le a b /\ mark_le b (pos s) /\
    (token_available s = true /\ (exists t r, tokens s = t :: r /\ mark_le a (t_start t)) \/
     exists l u, ts = l ++ [u] /\ mark_le a (t_end u)).
  Lemma evm_at ts t s b : AtS ts t s -> b = t_start t \/ b = t_end t -> evm ts s (t_start t) b.
  Proof.
    intros H Hb. destruct (tok_at _ _ _ _ _ _ _ H) as (M1 & M2 & M3 & _). split; [exact M3|].
    assert (mark_le (t_start t) b /\ mark_le b (pos s)) as [B1 B2].
    { destruct Hb as [-> | ->]; split; auto; [apply mark_le_refl|eapply mark_le_trans; eassumption]. }
    split; [exact B1|]. split; [exact B2|]. left. split; [apply H|]. destruct (at_tok _ _ _ _ _ _ _ H) as (r & Hr).
    exists t, r. split; [exact Hr|apply mark_le_refl].
  Qed.
  Lemma evm_last ts u s a b : ScS (ts ++ [u]) s -> (a = t_start u /\ b = t_end u) \/ (a = t_end u /\ b = t_end u) -> evm (ts ++ [u]) s a b.
  Proof.
    intros H Hb. assert (Hin : In u (ts ++ [u])) by (apply in_or_app; right; left; reflexivity).
    destruct (tok_in _ _ _ _ _ _ _ H Hin) as [M1 M2]. pose proof (ordered_after _ ts u [] _ (sc_ord _ _ _ _ _ _ H)) as M3.
    destruct Hb as [[-> ->]|[-> ->]].
    - split; [exact M3|]. split; [exact M1|]. split; [exact M2|]. right. exists ts, u. auto.
    - split; [eapply mark_le_trans; eassumption|]. split; [apply mark_le_refl|]. split; [exact M2|]. right. exists ts, u. split; [reflexivity|apply mark_le_refl].
  Qed.
  Lemma plain_leaf ts s d a b x sts ms tds al g' :
    ScS ts s -> forallb silent ts = true -> plain_ev d = true -> gstep g d = Some g' -> gof x sts (ds_of g') = Some g' ->
    is_end x = false -> first_tok x = None -> length ms = nmarks (x :: sts) -> mok s0 ts ms -> tdok g' tds ->
    (rank (x :: sts) + 1 <= rk + 4 * length ts)%nat -> evm ts s a b ->
    Post (Mk_event d a b) (Mk_pst s sts x ms tds al).
  Proof.
    intros H Hs Hp Hg Hgo He Hf Hl Hm Ht Hr (E1 & E2 & E3 & E4).
    apply (leaf_sc st s0 del lo g rk ts s _ _ _ _ _ _ g'); cbn [e_data e_start e_end]; auto.
    - apply explains_plain; assumption.
    - destruct d; exact I || discriminate.
    - eapply mok_pos; eassumption.
    - unfold first_ok. rewrite Hf. exact I.
  Qed.

  (** A collection: the states of its enclosing nodes are [sts]. *)
  Section collection.
    Variables (ds : list tag_directive) (f : frame) (fs : list frame) (sts : list pstate) (tds : list tag_directive) (al : list alias_data).
    Hypothesis Hg : g = GDoc ds (f :: fs).
    Hypothesis Hst : stack sts = Some fs.
    Hypothesis Htd : tdok g tds.
    Definition cpre (ts : list token) (ms : list mark) : Prop :=
      mok s0 ts ms /\ length ms = S (nmarks sts) /\ forallb silent ts = true.

    Lemma leave_ok d ts t s x ms : AtS ts t s -> cpre ts ms -> silent t = true -> is_stream_end t = false -> plain_ev d = true ->
      gstep g d = Some (GDoc ds fs) -> (rank sts + 1 <= rk + 4 * (length ts + 1))%nat ->
      PW s0 (leave_collection d t) Post (Mk_pst s sts x ms tds al).
    Proof.
      intros H (C1 & C2 & C3) Hs He Hp Hd Hr. unfold leave_collection, PW. apply wp_bind. eapply pop_r; [exact Hst|]. intros y r Hy.
      apply wp_bind. unfold drop_mark. apply wp_modify. unfold set_marks. cbn [sc states state marks tag_directives aliases].
      apply wp_bind. eapply skip_r; [exact H|exact He|]. intros s1 H1. apply wp_ret. rewrite Hy in *.
      destruct (stack_gof y r fs ds Hst) as (S1 & S2 & S3).
      apply (plain_leaf (ts ++ [t]) s1 d _ _ _ _ _ _ _ (GDoc ds fs)); auto.
      - rewrite forallb_app, C3. cbn. rewrite Hs. reflexivity.
      - destruct ms; cbn in *; [discriminate|]. lia.
      - apply mok_app, mok_tl, C1.
      - rewrite Hg in Htd. exact Htd.
      - rewrite app_length. cbn [length]. lia.
      - apply evm_last; auto.
    Qed.
    Lemma error_ok ctx pb ts t s x ms (Q : event -> pst -> Prop) : AtS ts t s -> cpre ts ms ->
      PW s0 (collection_error ctx pb t) Q (Mk_pst s sts x ms tds al).
    Proof.
      intros H (C1 & C2 & C3). unfold collection_error, PW. apply wp_bind. destruct ms as [|m ms]; [discriminate|].
      unfold pop_mark, wp. cbn [marks]. unfold set_marks. cbn. destruct (tok_at _ _ _ _ _ _ _ H) as (M1 & M2 & _).
      pose proof (mok_pos _ _ _ _ _ _ _ (at_sc _ _ _ _ _ _ _ H) C1) as Hm. inversion Hm; subst.
      eapply perr_parser; [apply (at_sc _ _ _ _ _ _ _ H)|assumption|eapply mark_le_trans; eassumption].
    Qed.
    (** Going on in the same collection in state [y]. *)
    Lemma stay_ok y d fs' a b ts s x ms : ScS ts s -> cpre ts ms -> plain_ev d = true -> gstep g d = Some (GDoc ds fs') ->
      gof y sts ds = Some (GDoc ds fs') -> mk y = 1%nat -> first_tok y = None -> is_end y = false ->
      (weight y + rank sts + 1 <= rk + 4 * length ts)%nat -> evm ts s a b ->
      PW s0 (goto y ;; ret (Mk_event d a b)) Post (Mk_pst s sts x ms tds al).
    Proof.
      intros H (C1 & C2 & C3) Hp Hd Hgo Hmk Hf He Hr E. unfold PW. apply wp_bind. unfold goto. apply wp_modify.
      unfold set_state. cbn [sc states state marks tag_directives aliases]. apply wp_ret.
      apply (plain_leaf ts s d a b _ _ _ _ _ (GDoc ds fs')); auto.
      - cbn [nmarks]. rewrite Hmk. exact C2.
      - rewrite Hg in Htd. exact Htd.
    Qed.
    (** A node in it, after which it goes on in state [y]. *)
    Lemma push_ok block ind y fs' ts t s x ms : AtS ts t s -> cpre ts ms -> after (f :: fs) = Some fs' -> stack (y :: sts) = Some fs' ->
      mk y = 1%nat -> (weight y + rank sts + 1 + (if ind : bool then 1 else 0) <= rk + 4 * length ts)%nat ->
      PW s0 (push_state y ;; parse_node block ind) Post (Mk_pst s sts x ms tds al).
    Proof.
      intros H (C1 & C2 & C3) Ha Hs Hmk Hr. unfold PW. apply wp_bind. unfold push_state. apply wp_modify.
      unfold set_states. cbn [sc states state marks tag_directives aliases].
      eapply node_ok; try eassumption. cbn [nmarks]. rewrite Hmk. exact C2.
    Qed.
  End collection.
End walk.

