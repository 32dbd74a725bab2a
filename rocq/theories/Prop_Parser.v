(** Prop_Parser.v -- C10 to C16, C39 (parser), C41 and C42: the events of the parser.

    Except for C16, which holds in every state, the theorems are about sessions in which every call
    so far has succeeded, on an arbitrary input stream (any bytes, chunks and I/O failures), and
    about the next call whatever its outcome.  Successive calls are calls of [Iterator::next];
    [C16_parse_is_next] says that [parse] does the same until the end of the stream. *)
From Coq Require Import ZifyBool ZifyNat ZifyN.
From Verif Require Import Base Utf Chars State Reader Scanner Parser EState Emitter Document Api Wp ReaderFacts Spec_Tokens ScanFacts TokFacts FetchFacts FetchWp FetchLoop FlowFacts Spec_Scanner SessionFacts Spec_Parser Spec_Events EventFacts ParserFacts ParserWalk ParserWalk2 ParserWalk3 ParserWalk4 ParserSession.

Lemma start_phi dbg e i : (phi (scanner_start dbg e i) = 4 * Z.of_nat (length (all_bytes i) + length (s_evs i)) + 8)%Z.
Proof.
  assert (Hm : meas (scanner_start dbg e i) = (length (all_bytes i) + length (s_evs i))%nat).
  { rewrite all_bytes_len. unfold meas, scanner_start, scanner_on, scanner_new. fld. rewrite src_size_eq. unfold src_bytes.
    cbn [length]. rewrite Nat.add_0_l, <- Nat.add_assoc. f_equal. induction (s_evs i) as [|x r IH]; [reflexivity|].
    rewrite evs_size_cons, evs_bytes_cons, IH. destruct x; cbn [ev_bytes length]; lia. }
  unfold phi, mu. rewrite Hm. unfold ti, ended, scanner_start, scanner_on, scanner_new. fld. cbn [length existsb orb negb b2z]. lia.
Qed.
Lemma grun_stream_end es : forall g g', grun g (map e_data es) = Some g' -> existsb is_stream_end_event es = true -> g' = GEnd.
Proof.
  induction es as [|e es IH]; intros g g'; cbn [map grun existsb]; [discriminate|]. destruct (gstep g (e_data e)) as [g1|] eqn:E; [|discriminate].
  intros H He. apply orb_true_iff in He. destruct He as [He|He]; [|eapply IH; eassumption].
  unfold is_stream_end_event in He. destruct (e_data e); try discriminate. destruct g as [| |ds [|[] [|]]|]; try discriminate.
  injection E as <-. destruct es as [|e2 es]; [injection H as <-; reflexivity|]. cbn in H. destruct (e_data e2); discriminate.
Qed.
Lemma grun_to_end es : forall g, grun g (map e_data es) = Some GEnd -> g <> GEnd -> existsb is_stream_end_event es = true.
Proof.
  induction es as [|e es IH]; intros g; cbn [map grun existsb]; [intros [= ->] H; contradiction|].
  destruct (gstep g (e_data e)) as [g1|] eqn:E; [|discriminate]. intros H Hg. apply orb_true_iff.
  destruct (is_stream_end_event e) eqn:Es; [auto|]. right. apply (IH _ H). intros ->.
  unfold is_stream_end_event in Es. destruct g as [| |ds [|[] [|]]|], (e_data e); discriminate.
Qed.

(** ** C10: the events form a prefix of a well-formed stream, a whole one at STREAM-END. *)
Theorem C10_events_follow_the_grammar : forall dbg e i n os p,
  calls parser_next n (parser_start dbg e i) = (os, p) -> Forall succeeded os ->
  (exists rest, stream_events (map e_data (events_of os) ++ rest)) /\
  (existsb is_stream_end_event (events_of os) = true -> stream_events (map e_data (events_of os))).
Proof.
  intros dbg e i n os p H Hr. destruct (session_parser _ _ _ _ _ _ _ _ (PI_start dbg e i) H Hr) as (tss & g' & lo' & S).
  pose proof (ps_g _ _ _ _ _ _ _ _ _ _ _ S) as Hg. split.
  - exact (grun_prefix _ _ Hg).
  - intros He. rewrite (grun_stream_end _ _ _ Hg He) in Hg. exact (grun_end _ Hg).
Qed.
(** And the iterator ends only after STREAM-END. *)
Theorem C10_no_end_before_stream_end : forall dbg e i n os p,
  calls parser_next n (parser_start dbg e i) = (os, p) -> Forall succeeded os -> In (Ok None) os ->
  stream_events (map e_data (events_of os)).
Proof.
  intros dbg e i n os p H Hr Hin. destruct (session_parser _ _ _ _ _ _ _ _ (PI_start dbg e i) H Hr) as (tss & g' & lo' & S).
  pose proof (ps_g _ _ _ _ _ _ _ _ _ _ _ S) as Hg. pose proof (ps_pi _ _ _ _ _ _ _ _ _ _ _ S) as PIp.
  rewrite (is_end_g _ _ _ _ _ PIp) in Hg; [exact (grun_end _ Hg)|]. apply (ps_none _ _ _ _ _ _ _ _ _ _ _ S). apply Nat.ltb_lt.
  pose proof (calls_length parser_next n (parser_start dbg e i)) as Hl. rewrite H in Hl. cbn [fst] in Hl. rewrite <- Hl.
  clear -Hin. induction os as [|o os IH]; [contradiction|]. cbn [events_of flat_map length]. rewrite app_length. fold (events_of os).
  assert (length (events_of os) <= length os)%nat.
  { clear. induction os as [|o os IH]; [auto|]. cbn [events_of flat_map length]. rewrite app_length. fold (events_of os). destruct o as [[]| | |]; cbn; lia. }
  destruct Hin as [->|Hin]; [cbn; lia|]. specialize (IH Hin). destruct o as [[]| | |]; cbn; lia.
Qed.
Print Assumptions C10_events_follow_the_grammar.
Print Assumptions C10_no_end_before_stream_end.

(** ** C11: no panics but the known ones of the scanner. *)
Theorem C11_only_scanner_panics : forall dbg e i n os p q,
  calls parser_next n (parser_start dbg e i) = (os, p) -> Forall succeeded os ->
  fst (parser_next p) = Panic q -> known_panic dbg q \/ overflow_panic q.
Proof.
  intros dbg e i n os p q H Hr Hp. destruct (session_parser _ _ _ _ _ _ _ _ (PI_start dbg e i) H Hr) as (tss & g' & lo' & S).
  pose proof (next_ok _ _ _ _ _ (ps_pi _ _ _ _ _ _ _ _ _ _ _ S)) as N. rewrite Hp in N. cbn in N.
  pose proof (pg_dbg _ _ _ (ps_prog _ _ _ _ _ _ _ _ _ _ _ S)) as D. destruct N as [F|[F _]].
  - left. rewrite D in F. destruct F as [->|[->|[->|[-> F]]]]; try exact I. exact F.
  - right. destruct F as [-> | ->]; exact I.
Qed.
Theorem C11_no_overflow_below_2GiB : forall dbg e i n os p q,
  calls parser_next n (parser_start dbg e i) = (os, p) -> Forall succeeded os ->
  N.of_nat (length (all_bytes i)) < 2147483648 ->
  fst (parser_next p) = Panic q -> known_panic dbg q.
Proof.
  intros dbg e i n os p q H Hr Hn Hp. destruct (session_parser _ _ _ _ _ _ _ _ (PI_start dbg e i) H Hr) as (tss & g' & lo' & S).
  pose proof (next_ok _ _ _ _ _ (ps_pi _ _ _ _ _ _ _ _ _ _ _ S)) as N. rewrite Hp in N. cbn in N.
  pose proof (ps_prog _ _ _ _ _ _ _ _ _ _ _ S) as P. destruct N as [F|[_ F]].
  - rewrite (pg_dbg _ _ _ P) in F. destruct F as [->|[->|[->|[-> F]]]]; try exact I. exact F.
  - exfalso. apply (F 2147483647); [lia|]. apply (pg_bnd _ _ _ P). apply bnd_start. lia.
Qed.
Print Assumptions C11_only_scanner_panics.
Print Assumptions C11_no_overflow_below_2GiB.

(** ** C12: every call returns; the number of events is linear in the size of the input. *)
Theorem C12_every_call_returns : forall dbg e i n os p,
  calls parser_next n (parser_start dbg e i) = (os, p) -> Forall succeeded os -> fst (parser_next p) <> Fuel.
Proof.
  intros dbg e i n os p H Hr Hp. destruct (session_parser _ _ _ _ _ _ _ _ (PI_start dbg e i) H Hr) as (tss & g' & lo' & S).
  pose proof (next_ok _ _ _ _ _ (ps_pi _ _ _ _ _ _ _ _ _ _ _ S)) as N. rewrite Hp in N. exact N.
Qed.
Theorem C12_linearly_many_events : forall dbg e i n os p,
  calls parser_next n (parser_start dbg e i) = (os, p) -> Forall succeeded os ->
  (length (events_of os) <= 16 * (length (all_bytes i) + length (s_evs i)) + 32)%nat /\
  (16 * (length (all_bytes i) + length (s_evs i)) + 32 < n -> existsb is_stream_end_event (events_of os) = true)%nat.
Proof.
  intros dbg e i n os p H Hr. destruct (session_parser _ _ _ _ _ _ _ _ (PI_start dbg e i) H Hr) as (tss & g' & lo' & S).
  pose proof (ps_rank _ _ _ _ _ _ _ _ _ _ _ S) as R. cbn [parser_start state states set_sc parser_new rank weight] in R.
  pose proof (pg_phi _ _ _ (ps_prog _ _ _ _ _ _ _ _ _ _ _ S)) as P. cbn [parser_start sc set_sc] in P. rewrite start_phi in P.
  pose proof (phi_nonneg (sc p)). split; [lia|]. intros Hn. pose proof (ps_pi _ _ _ _ _ _ _ _ _ _ _ S) as PIp.
  pose proof (ps_g _ _ _ _ _ _ _ _ _ _ _ S) as Hg. rewrite (is_end_g _ _ _ _ _ PIp) in Hg.
  - eapply grun_to_end; [exact Hg|discriminate].
  - apply (ps_none _ _ _ _ _ _ _ _ _ _ _ S). apply Nat.ltb_lt. lia.
Qed.
Print Assumptions C12_every_call_returns.
Print Assumptions C12_linearly_many_events.

(** ** C15 (and C13, C14): what the events carry.
    The tokens the scanner gives for the same input can be cut into consecutive groups, one per
    event, such that every event carries exactly what its group says (see [explains]): its anchor,
    its tag resolved with the directives of the current document only, the value and style of the
    scalar, the version and tag directives.  In particular a group with a handle that is not
    declared, two version directives or two tags does not give an event. *)
Theorem C15_events_explained_by_tokens : forall dbg e i n os p,
  calls parser_next n (parser_start dbg e i) = (os, p) -> Forall succeeded os ->
  exists tss, scanner_gives dbg e i (concat tss) /\ explained [] tss (map e_data (events_of os)) /\
    (existsb is_stream_end_event (events_of os) = true -> existsb is_stream_end_token (concat tss) = true).
Proof.
  intros dbg e i n os p H Hr. destruct (session_parser _ _ _ _ _ _ _ _ (PI_start dbg e i) H Hr) as (tss & g' & lo' & S).
  exists tss. pose proof (ps_pi _ _ _ _ _ _ _ _ _ _ _ S) as PIp. destruct (pi_scan _ _ _ _ _ PIp) as (s1 & Hs1 & Hs2 & _).
  cbn [app] in *. split; [exists s1; exact Hs1|]. split; [exact (ps_ex _ _ _ _ _ _ _ _ _ _ _ S)|].
  intros He. pose proof (ps_g _ _ _ _ _ _ _ _ _ _ _ S) as Hg. pose proof (grun_stream_end _ _ _ Hg He) as ->.
  pose proof (g_end_is _ _ _ _ PIp) as Hx. pose proof (pi_sep _ _ _ _ _ PIp) as Hse. rewrite Hx in Hse.
  rewrite (si_ended _ _ _ (pi_inv _ _ _ _ _ PIp)) in Hse. exact Hse.
Qed.
Print Assumptions C15_events_explained_by_tokens.

(** ** C13, C14 *)
Lemma explained_app ds a : forall tss d b, explained ds tss (a ++ d :: b) ->
  exists t1 ts t2, tss = t1 ++ ts :: t2 /\ explained ds t1 a /\ explains (fold_left directives_after a ds) ts d.
Proof.
  revert ds. induction a as [|x a IH]; intros ds [|ts tss] d b; cbn [app explained]; try contradiction.
  - intros [H _]. exists [], ts, tss. cbn. auto.
  - intros [H1 H2]. destruct (IH _ _ _ _ H2) as (t1 & u & t2 & -> & H3 & H4). exists (ts :: t1), u, t2. cbn [explained fold_left]. auto.
Qed.
Theorem C13_versions : forall dbg e i n os p,
  calls parser_next n (parser_start dbg e i) = (os, p) -> Forall succeeded os ->
  forall ev vd tds im, In ev (events_of os) -> e_data ev = EvDocumentStart (Some vd) tds im -> vd = Mk_vd 1 1 \/ vd = Mk_vd 1 2.
Proof.
  intros dbg e i n os p H Hr ev vd tds im Hin Hd. destruct (session_parser _ _ _ _ _ _ _ _ (PI_start dbg e i) H Hr) as (tss & g' & lo' & S).
  pose proof (ps_dirs _ _ _ _ _ _ _ _ _ _ _ S) as HD. rewrite Forall_forall in HD. specialize (HD _ Hin). rewrite Hd in HD.
  destruct HD as [[HD|[HD|HD]] _]; [discriminate|left; congruence|right; congruence].
Qed.
(** The version directives of the token stream are those of the events: none is dropped, so a second
    one before a document has made the call fail. *)
Theorem C13_no_version_dropped : forall dbg e i n os p,
  calls parser_next n (parser_start dbg e i) = (os, p) -> Forall succeeded os ->
  exists ts, scanner_gives dbg e i ts /\
    versions ts = flat_map (fun d => match d with EvDocumentStart (Some vd) _ _ => [vd] | _ => [] end) (map e_data (events_of os)) /\
    (existsb is_stream_end_event (events_of os) = true -> existsb is_stream_end_token ts = true).
Proof.
  intros dbg e i n os p H Hr. destruct (C15_events_explained_by_tokens _ _ _ _ _ _ H Hr) as (tss & H1 & H2 & H3).
  exists (concat tss). split; [exact H1|]. split; [|exact H3]. clear -H2. revert H2. generalize (@nil tag_directive).
  revert tss. induction (map e_data (events_of os)) as [|d l IH]; intros [|ts tss] ds; cbn [explained]; try contradiction; [reflexivity|].
  intros [E H]. cbn [concat flat_map]. unfold versions in *. rewrite flat_map_app, (IH _ _ H). f_equal. pose proof (ex_version _ _ _ E) as X. unfold versions in X. rewrite X. clear X.
  destruct d as [| |[]| | | | | | |]; reflexivity.
Qed.
Theorem C14_tag_directives_distinct : forall dbg e i n os p,
  calls parser_next n (parser_start dbg e i) = (os, p) -> Forall succeeded os ->
  forall ev vd tds im, In ev (events_of os) -> e_data ev = EvDocumentStart vd tds im -> NoDup (map td_handle tds).
Proof.
  intros dbg e i n os p H Hr ev vd tds im Hin Hd. destruct (session_parser _ _ _ _ _ _ _ _ (PI_start dbg e i) H Hr) as (tss & g' & lo' & S).
  pose proof (ps_dirs _ _ _ _ _ _ _ _ _ _ _ S) as HD. rewrite Forall_forall in HD. specialize (HD _ Hin). rewrite Hd in HD. apply HD.
Qed.
(** Tags are resolved with the directives of their own document: in a document without directives of
    its own (a bare one, or an explicit one after others that have some) only the defaults are. *)
Theorem C14_directives_do_not_leak : forall dbg e i n os p,
  calls parser_next n (parser_start dbg e i) = (os, p) -> Forall succeeded os ->
  forall a vd tds im b d c, map e_data (events_of os) = a ++ EvDocumentStart vd tds im :: b ++ d :: c ->
  Forall (fun x => match x with EvDocumentStart _ _ _ | EvDocumentEnd _ => False | _ => True end) b ->
  exists tss ts, scanner_gives dbg e i (concat (tss ++ [ts])) /\ length tss = length (a ++ EvDocumentStart vd tds im :: b) /\ explains tds ts d.
Proof.
  intros dbg e i n os p H Hr a vd tds im b d c E Hb. destruct (C15_events_explained_by_tokens _ _ _ _ _ _ H Hr) as (tss & (s & H1) & H2 & _).
  rewrite E in H2. change (a ++ EvDocumentStart vd tds im :: b ++ d :: c) with (a ++ (EvDocumentStart vd tds im :: b) ++ d :: c) in H2. rewrite app_assoc in H2.
  destruct (explained_app _ _ _ _ _ H2) as (t1 & ts & t2 & -> & H3 & H4). exists t1, ts. split; [|split].
  - assert (Hc : concat (t1 ++ ts :: t2) = concat (t1 ++ [ts]) ++ concat t2).
    { rewrite !concat_app. cbn [concat]. rewrite app_nil_r, <- app_assoc. reflexivity. }
    rewrite Hc, app_length, calls_app, map_app in H1. destruct (calls scanner_next (length (concat (t1 ++ [ts]))) _) as [l1 s1] eqn:E1.
    destruct (calls scanner_next (length (concat t2)) s1) as [l2 s2]. exists s1. rewrite E1. f_equal.
    pose proof (calls_length scanner_next (length (concat (t1 ++ [ts]))) (scanner_start dbg e i)) as Hl. rewrite E1 in Hl. cbn [fst] in Hl.
    pose proof (f_equal fst H1) as H1'. cbn [fst] in H1'. apply (f_equal (firstn (length l1))) in H1'.
    rewrite firstn_app, Nat.sub_diag, firstn_all, firstn_O, app_nil_r in H1'. rewrite H1', Hl.
    rewrite firstn_app, map_length, Nat.sub_diag, firstn_O, app_nil_r. rewrite <- (map_length (fun t => Ok (Some t)) (concat (t1 ++ [ts]))) at 1. apply firstn_all.
  - clear -H3. revert H3. generalize (a ++ EvDocumentStart vd tds im :: b), (@nil tag_directive). intros l. revert t1.
    induction l as [|x l IH]; intros [|t t1] ds; cbn [explained length]; try contradiction; auto. intros [_ H]. f_equal. eapply IH, H.
  - rewrite fold_left_app in H4. cbn [fold_left directives_after] in H4. revert H4. replace (fold_left directives_after b tds) with tds; [auto|].
    clear -Hb. induction Hb as [|x b Hx Hb IH]; [reflexivity|]. cbn [fold_left]. destruct x; try contradiction; exact IH.
Qed.
Print Assumptions C13_versions.
Print Assumptions C13_no_version_dropped.
Print Assumptions C14_tag_directives_distinct.
Print Assumptions C14_directives_do_not_leak.

(** ** C42: no content is lost, duplicated or invented. *)
Definition event_anchors (l : list event_data) : list str := flat_map (fun d => opt_list (anchor_of d)) l.
Definition event_aliases (l : list event_data) : list str := flat_map (fun d => match d with EvAlias a => [a] | _ => [] end) l.
Definition event_scalars (l : list event_data) : list (str * scalar_style) :=
  flat_map (fun d => match d with EvScalar _ _ v _ _ st => [(v, st)] | _ => [] end) l.
(** Omitted nodes give empty plain scalars. *)
Definition not_empty_plain (x : str * scalar_style) : bool := match x with ([], SPlain) => false | _ => true end.
Theorem C42_content_preserved : forall dbg e i n os p,
  calls parser_next n (parser_start dbg e i) = (os, p) -> Forall succeeded os ->
  exists ts, scanner_gives dbg e i ts /\
    anchors ts = event_anchors (map e_data (events_of os)) /\
    aliases_in ts = event_aliases (map e_data (events_of os)) /\
    filter not_empty_plain (scalars ts) = filter not_empty_plain (event_scalars (map e_data (events_of os))) /\
    (existsb is_stream_end_event (events_of os) = true -> existsb is_stream_end_token ts = true).
Proof.
  intros dbg e i n os p H Hr. destruct (C15_events_explained_by_tokens _ _ _ _ _ _ H Hr) as (tss & H1 & H2 & H3).
  exists (concat tss). split; [exact H1|]. clear H1. cut (anchors (concat tss) = event_anchors (map e_data (events_of os)) /\
    aliases_in (concat tss) = event_aliases (map e_data (events_of os)) /\
    filter not_empty_plain (scalars (concat tss)) = filter not_empty_plain (event_scalars (map e_data (events_of os)))); [tauto|].
  clear -H2. revert H2. generalize (@nil tag_directive). revert tss.
  induction (map e_data (events_of os)) as [|d l IH]; intros [|ts tss] ds; cbn [explained]; try contradiction; [auto|].
  intros [E H]. destruct (IH _ _ H) as (I1 & I2 & I3). cbn [concat]. unfold anchors, aliases_in, scalars, event_anchors, event_aliases, event_scalars in *.
  cbn [flat_map]. rewrite !flat_map_app, !filter_app, I1, I2, I3. split; [|split]; f_equal.
  - apply (ex_anchor _ _ _ E).
  - apply (ex_alias _ _ _ E).
  - pose proof (ex_scalar _ _ _ E) as X. unfold scalars in X. destruct d; try (rewrite X; reflexivity); try (destruct X as [-> _]; reflexivity).
    destruct X as [[-> _]|(-> & -> & -> & _)]; reflexivity.
Qed.
Print Assumptions C42_content_preserved.

(** ** C41: the marks of events. *)
Theorem C41_event_marks : forall dbg e i n os p,
  calls parser_next n (parser_start dbg e i) = (os, p) -> Forall succeeded os ->
  marks_follow mark0 (events_of os) /\
  (enc (sc p) <> Utf16Le -> enc (sc p) <> Utf16Be ->
   forall ev, In ev (events_of os) -> m_index (e_end ev) <= N.of_nat (length (all_bytes i))).
Proof.
  intros dbg e i n os p H Hr. destruct (session_parser _ _ _ _ _ _ _ _ (PI_start dbg e i) H Hr) as (tss & g' & lo' & S).
  split; [exact (ps_marks _ _ _ _ _ _ _ _ _ _ _ S)|]. intros H1 H2 ev Hin.
  assert (Hu : utf16 (enc (sc p)) = false) by (destruct (enc (sc p)); try reflexivity; congruence).
  pose proof (pg_idx _ _ _ (ps_prog _ _ _ _ _ _ _ _ _ _ _ S) Hu) as Hp. cbn [parser_start sc set_sc] in Hp.
  assert (H0 : m_index (pos (scanner_start dbg e i)) + blen (scanner_start dbg e i) = N.of_nat (length (all_bytes i))).
  { rewrite all_bytes_len. unfold blen, sbytes, scanner_start, scanner_on, scanner_new. fld. cbn. reflexivity. }
  pose proof (ps_ends _ _ _ _ _ _ _ _ _ _ _ S) as F. rewrite Forall_forall in F. destruct (F _ Hin) as [F1 _]. lia.
Qed.
Print Assumptions C41_event_marks.

(** ** C39 (parser): errors. *)
Theorem C39_parser_error_marks : forall dbg e i n os p er p',
  calls parser_next n (parser_start dbg e i) = (os, p) -> Forall succeeded os -> parser_next p = (Err er, p') ->
  Forall (fun m => before m (pos (sc p'))) (error_marks er) /\
  match er with EScanner _ _ _ _ | EParser _ _ _ _ | EReader _ _ _ | EIo _ => True | _ => False end /\
  (enc (sc p') <> Utf16Le -> enc (sc p') <> Utf16Be ->
   forall m, In m (error_marks er) -> m_index m <= N.of_nat (length (all_bytes i))).
Proof.
  intros dbg e i n os p er p' H Hr Hp. destruct (session_parser _ _ _ _ _ _ _ _ (PI_start dbg e i) H Hr) as (tss & g' & lo' & S).
  pose proof (next_ok _ _ _ _ _ (ps_pi _ _ _ _ _ _ _ _ _ _ _ S)) as N. rewrite Hp in N. cbn in N. destruct N as (_ & [E1 E2 E3 E4]).
  split; [exact E1|]. split; [destruct er; auto|]. intros H1 H2 m Hm.
  assert (Hu : utf16 (enc (sc p')) = false) by (destruct (enc (sc p')); try reflexivity; congruence).
  specialize (E2 Hu). pose proof (pg_idx _ _ _ (ps_prog _ _ _ _ _ _ _ _ _ _ _ S) (utf16_mono _ _ E3 Hu)) as Hq. cbn [parser_start sc set_sc] in Hq.
  assert (H0 : m_index (pos (scanner_start dbg e i)) + blen (scanner_start dbg e i) = N.of_nat (length (all_bytes i))).
  { rewrite all_bytes_len. unfold blen, sbytes, scanner_start, scanner_on, scanner_new. fld. cbn. reflexivity. }
  rewrite Forall_forall in E1. destruct (E1 _ Hm) as [F1 _]. lia.
Qed.
Print Assumptions C39_parser_error_marks.

(** ** C16: after the end the parser stays ended.  In every state. *)
Definition nse {S} (m : M S event) : Prop := forall s e s', m s = (Ok e, s') -> e_data e <> EvStreamEnd.
Lemma nse_bind {S A} (m : M S A) f : (forall a, nse (f a)) -> nse (bind m f).
Proof. intros H s e s' E. unfold bind in E. destruct (m s) as [[a|x|x|] s1]; try discriminate. eapply H, E. Qed.
Lemma nse_ret {S} e : e_data e <> EvStreamEnd -> nse (S := S) (ret e).
Proof. intros H s e' s' E. injection E as <- _. exact H. Qed.
Lemma nse_fail {S} x : nse (S := S) (fail x). Proof. intros s e s' E. discriminate. Qed.
Lemma nse_panics {S} x : nse (S := S) (panics x). Proof. intros s e s' E. discriminate. Qed.
Ltac nse := repeat first [apply nse_bind; intro|apply nse_fail|apply nse_panics|apply nse_ret; discriminate
  |match goal with |- nse (match ?x with _ => _ end) => destruct x end].
Lemma nse_node b i : nse (parse_node b i).
Proof. unfold parse_node, parse_node_content. nse. Qed.
Ltac nse2 := repeat first [apply nse_node|apply nse_bind; intro|apply nse_fail|apply nse_panics|apply nse_ret; discriminate
  |match goal with |- nse (match ?x with _ => _ end) => destruct x end
  |progress unfold leave_collection, collection_error].
Lemma state_machine_end p e p' : state_machine p = (Ok e, p') -> e_data e = EvStreamEnd -> state p' = PEnd.
Proof.
  intros H He. unfold state_machine, bind, get in H.
  assert (Hd : forall im, parse_document_start im p = (Ok e, p') -> state p' = PEnd).
  { intros im Hp. unfold parse_document_start in Hp.
    apply (f_equal (fun x => match x with (Ok e, q) => e_data e = EvStreamEnd -> state q = PEnd | _ => True end)) in Hp.
    assert (G : match bind (if im then ret tt else skip_document_ends) (fun _ => t <- ppeek ;;
       if im && negb (is_directive_or_boundary (t_data t)) then
         process_directives ;; push_state PDocumentEnd ;; goto PBlockNode ;; ret (Mk_event (EvDocumentStart None [] true) (t_start t) (t_end t))
       else if negb (is_stream_end t) then
         '(vd, tds) <- process_directives ;;
         t' <- ppeek ;;
         match t_data t' with
         | TDocumentStart => push_state PDocumentEnd ;; goto PDocumentContent ;; pskip ;; ret (Mk_event (EvDocumentStart vd tds false) (t_start t) (t_end t'))
         | _ => fail (EParser "" mark0 "did not find expected <document start>" (t_start t'))
         end
       else goto PEnd ;; pskip ;; ret (Mk_event EvStreamEnd (t_start t) (t_end t))) p with (Ok e, q) => e_data e = EvStreamEnd -> state q = PEnd | _ => True end).
    { unfold bind at 1. destruct ((if im then ret tt else skip_document_ends) p) as [[u|x|x|] p1]; auto.
      unfold bind at 1. destruct (ppeek p1) as [[t|x|x|] p2]; auto.
      destruct (im && negb (is_directive_or_boundary (t_data t))).
      - assert (N : nse (process_directives ;; push_state PDocumentEnd ;; goto PBlockNode ;; ret (Mk_event (EvDocumentStart None [] true) (t_start t) (t_end t)))) by nse.
        destruct (bind process_directives _ p2) as [[x|x|x|] p3] eqn:E; auto. intros Hx. destruct (N _ _ _ E Hx).
      - destruct (negb (is_stream_end t)).
        + assert (N : nse ('(vd, tds) <- process_directives ;; t' <- ppeek ;;
             match t_data t' with
             | TDocumentStart => push_state PDocumentEnd ;; goto PDocumentContent ;; pskip ;; ret (Mk_event (EvDocumentStart vd tds false) (t_start t) (t_end t'))
             | _ => fail (EParser "" mark0 "did not find expected <document start>" (t_start t'))
             end)) by nse.
          destruct (bind process_directives _ p2) as [[x|x|x|] p3] eqn:E; auto. intros Hx. destruct (N _ _ _ E Hx).
        + unfold bind, goto, modify, pskip, on_sc. cbn [sc set_state]. destruct (skip_token (sc p2)) as [[[]|x|x|] s3]; cbn; auto. }
    rewrite Hp in G. exact (G He). }
  assert (Hn : forall m, nse m -> m p = (Ok e, p') -> state p' = PEnd).
  { intros m N Hm. destruct (N _ _ _ Hm He). }
  destruct (state p); try (exact (Hd _ H)); try discriminate H; refine (Hn _ _ H); try apply nse_node.
  - unfold parse_stream_start. nse2.
  - unfold parse_document_content. nse2.
  - unfold parse_document_end. nse2.
  - unfold parse_block_sequence_entry. nse2.
  - unfold parse_block_sequence_entry. nse2.
  - unfold parse_indentless_sequence_entry. nse2.
  - unfold parse_block_mapping_key. nse2.
  - unfold parse_block_mapping_key. nse2.
  - unfold parse_block_mapping_value. nse2.
  - unfold parse_flow_sequence_entry. nse2.
  - unfold parse_flow_sequence_entry. nse2.
  - unfold parse_flow_sequence_entry_mapping_key. nse2.
  - unfold parse_flow_sequence_entry_mapping_value. nse2.
  - unfold parse_flow_sequence_entry_mapping_end. nse2.
  - unfold parse_flow_mapping_key. nse2.
  - unfold parse_flow_mapping_key. nse2.
  - unfold parse_flow_mapping_value. nse2.
  - unfold parse_flow_mapping_value. nse2.
Qed.
Lemma at_end_calls p : at_end p = true -> parse p = (Ok (Mk_event EvStreamEnd mark0 mark0), p) /\ parser_next p = (Ok None, p).
Proof. intros H. unfold parse, parser_next, bind, get. rewrite H. auto. Qed.
(** Whatever happened before (the state [p] is arbitrary): after a call that returned STREAM-END,
    every sequence of calls of [parse] and [next] gives STREAM-END and None, and changes nothing at
    all, so nothing is read either. *)
Definition ended_outcome (c : pcall) (r : res pout) : Prop :=
  match c with
  | CallParse => r = Ok (OEvent (Mk_event EvStreamEnd mark0 mark0))
  | CallPNext => r = Ok ONone
  | CallLoad => True
  end.
Theorem C16_after_the_end : forall p c r ev p' cs,
  (c = CallParse \/ c = CallPNext) -> pinvoke c p = (r, p') -> r = Ok (OEvent ev) -> e_data ev = EvStreamEnd ->
  Forall (fun c => c <> CallLoad) cs ->
  exists os, psession cs p' = (os, p') /\ Forall2 ended_outcome cs os.
Proof.
  intros p c r ev p' cs Hc Hi -> He Hcs.
  assert (Ha : at_end p' = true).
  { assert (Hp : forall q e q', parse q = (Ok e, q') -> e_data e = EvStreamEnd -> at_end q' = true).
    { intros q e q' Hq Hd. unfold parse, bind, get in Hq. destruct (at_end q) eqn:Eq.
      - injection Hq as _ <-. exact Eq.
      - pose proof (state_machine_end _ _ _ Hq Hd) as Hs. unfold at_end. rewrite Hs. apply orb_true_r. }
    destruct Hc as [-> | ->]; cbn [pinvoke] in Hi; unfold bind in Hi.
    - destruct (parse p) as [[e|x|x|] p1] eqn:E; try discriminate. injection Hi as -> ->. eapply Hp; eassumption.
    - unfold parser_next, bind, get in Hi. destruct (at_end p); [discriminate|]. destruct (parse p) as [[e|x|x|] p1] eqn:E; try discriminate.
      injection Hi as -> ->. eapply Hp; eassumption. }
  clear - Ha Hcs. destruct (at_end_calls _ Ha) as [E1 E2]. induction Hcs as [|c cs Hc Hcs (os & IH1 & IH2)]; [exists []; auto|].
  cbn [psession]. destruct c; [| |contradiction]; cbn [pinvoke]; unfold bind; rewrite ?E1, ?E2; unfold ret; rewrite IH1; eexists; (split; [reflexivity|]); constructor; auto; reflexivity.
Qed.
(** Until then the two methods do the same. *)
Theorem C16_parse_is_next : forall p, at_end p = false -> pinvoke CallPNext p = pinvoke CallParse p.
Proof.
  intros p H. cbn [pinvoke]. unfold parser_next, bind, get. rewrite H. destruct (parse p) as [[e|x|x|] p1]; reflexivity.
Qed.
(** And loading from an ended parser gives an empty document. *)
Theorem C16_load_after_the_end : forall dbg e i n os p,
  calls parser_next n (parser_start dbg e i) = (os, p) -> Forall succeeded os -> existsb is_stream_end_event (events_of os) = true ->
  load p = (Ok (document_new None [] false false), p).
Proof.
  intros dbg e i n os p H Hr He. destruct (session_parser _ _ _ _ _ _ _ _ (PI_start dbg e i) H Hr) as (tss & g' & lo' & S).
  pose proof (ps_pi _ _ _ _ _ _ _ _ _ _ _ S) as PIp. pose proof (ps_g _ _ _ _ _ _ _ _ _ _ _ S) as Hg.
  pose proof (grun_stream_end _ _ _ Hg He) as ->. pose proof (pi_sep _ _ _ _ _ PIp) as Hse. rewrite (g_end_is _ _ _ _ PIp) in Hse.
  unfold load, load_rest. destruct (stream_start_produced (sc p)) eqn:Es; [rewrite Hse; reflexivity|].
  exfalso. pose proof (pi_inv _ _ _ _ _ PIp) as I. destruct (si_fresh _ _ _ I Es) as (_ & _ & H0 & _). unfold all in H0. apply app_eq_nil in H0.
  rewrite (si_ended _ _ _ I), (proj1 H0) in Hse. discriminate.
Qed.
Print Assumptions C16_after_the_end.
Print Assumptions C16_parse_is_next.
Print Assumptions C16_load_after_the_end.

(** ** The hypotheses are met. *)
(** Two documents, with directives, tags, anchors, aliases, nested collections and empty nodes. *)
Definition pnl : list byte := [10].
Definition parser_demo_bytes : list byte :=
  lit "%YAML 1.1" ++ pnl ++ lit "%TAG !e! tag:e.org,2000:" ++ pnl ++ lit "--- !e!map &a" ++ pnl ++
  lit "k: [x, {y: 'z', ? w}, *a, p: q]" ++ pnl ++ lit "l:" ++ pnl ++ lit "- !!int 3" ++ pnl ++ lit "- ? !<tag:v> q" ++ pnl ++ lit "..." ++ pnl ++
  lit "---" ++ pnl ++ lit "- !local |" ++ pnl ++ lit "  text" ++ pnl ++ lit "-" ++ pnl.
Definition parser_demo_source : source :=
  Mk_source (firstn 7 parser_demo_bytes) [SData (firstn 30 (skipn 7 parser_demo_bytes)); SIntr; SData (skipn 37 parser_demo_bytes)].
Example parser_demo :
  let '(os, p) := calls parser_next 60 (parser_start true EncAny parser_demo_source) in
  Forall succeeded os /\ length (events_of os) = 35%nat /\ existsb is_stream_end_event (events_of os) = true /\
  flat_map (fun e => opt_list (tag_of (e_data e))) (events_of os) =
    [lit "tag:e.org,2000:map"; lit "tag:yaml.org,2002:int"; lit "tag:v"; lit "!local"] /\
  In (EvDocumentStart (Some (Mk_vd 1 1)) [Mk_td (lit "!e!") (lit "tag:e.org,2000:")] false) (map e_data (events_of os)) /\
  In (EvDocumentStart None [] false) (map e_data (events_of os)).
Proof. vm_compute. split; [repeat constructor|]. repeat split; try reflexivity; tauto. Qed.
(** A parser error, after 6 events, with its position; the handle declared in the first document is
    unknown in the second one. *)
Example parser_demo_error :
  let '(os, p) := calls parser_next 5 (parser_start false EncAny (slice_source (lit "%TAG !e! x:" ++ pnl ++ lit "--- !e!a b" ++ pnl ++ lit "--- !e!a b"))) in
  Forall succeeded os /\ length (events_of os) = 5%nat /\
  fst (parser_next p) = Err (EParser "while parsing a node" (Mk_mark 27 2 4) "found undefined tag handle" (Mk_mark 27 2 4)).
Proof. vm_compute. split; [repeat constructor|]. split; reflexivity. Qed.
