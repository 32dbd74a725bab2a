(** Prop_EmitGrammar.v -- C25 and C29, and the rest of C26: which event sequences the emitter
    accepts.

    The sessions are arbitrary lists of calls of [emit] and [flush] on a new emitter with arbitrary
    settings and fault schedule, beginning with STREAM-START and stopping at the first call that
    does not succeed.  The grammar is that of Spec_Events.v, the validity of names, tags and
    directives that of Spec_EmitNames.v. *)
From Verif Require Import Base Utf Chars EState Emitter Document Api Wp IoFacts Spec_Events EventFacts Spec_Emitter Spec_EmitNames
  EmitText EmitRuns EmitIo EmitSession EmitGrammar Prop_Emitter.

(** The events of a session can be continued to a stream. *)
Definition well_formed_prefix (ev : encoding) (es : list event) : Prop :=
  exists rest, stream_events (EvStreamStart ev :: map e_data es ++ rest).
Definition all_valid (canonical : bool) (es : list event) : Prop := Forall (fun e => valid_event canonical (e_data e)) es.
Definition ascii_tags (es : list event) : Prop := Forall (fun e => ascii_tag (e_data e)) es.

Lemma prefix_grun ev es : well_formed_prefix ev es <-> exists g, grun GDocs (data es) = Some g.
Proof.
  split.
  - intros (rest & H). apply stream_grun in H. cbn [grun gstep] in H. rewrite grun_app in H. unfold data.
    destruct (grun GDocs (map e_data es)) as [g|]; [eauto|discriminate].
  - intros (g & H). apply (grun_prefix (EvStreamStart ev :: data es) g H).
Qed.
Lemma not_prefix ev l e g : grun GDocs (data l) = Some g -> gstep g (e_data e) = None -> ~ well_formed_prefix ev (l ++ [e]).
Proof.
  intros G H W. apply prefix_grun in W. destruct W as (g2 & W). unfold data in W. rewrite map_app, grun_app in W. unfold data in G. rewrite G in W.
  cbn [map grun] in W. rewrite H in W. discriminate.
Qed.
Lemma session_spec ev st plan l : ascii_tags (emitted l) ->
  wp (session ev l) (fun _ s' => so_far (st_canonical st) GDocs (emitted l) s')
    (fun x _ => io_error x \/ refuses x /\ bad_at (st_canonical st) GDocs (emitted l)) (fun _ => False) (new_emitter st plan).
Proof.
  intros Ha. unfold wp. rewrite session_eq.
  exact (run_calls_spec (st_canonical st) GDocs l ltac:(discriminate) [] (started ev st plan) (started_so_far ev st plan) Ha).
Qed.
(** A session fails with an I/O error only if the handler does. *)
Lemma calls_failures l : WS (run_calls l).
Proof.
  induction l as [|c l IH]; cbn [run_calls]; [apply Fp_ret|]. apply Fp_bind; [|intros; exact IH]. destruct c; cbn [run_call]; [apply W_emit|apply W_flush].
Qed.
Lemma session_failures ev l s k s' : session ev l s = (Err (EIo (OtherIo k)), s') -> In k (write_failures s).
Proof.
  intros H. destruct (calls_failures (CEmit (event_new (EvStreamStart ev)) :: l) s) as (E & _).
  unfold session in H. rewrite H in E. rewrite E. left. reflexivity.
Qed.

(** C25, acceptance: a well-formed sequence of valid events is accepted, unless the handler fails. *)
Theorem C25_accepts st plan ev l :
  well_formed_prefix ev (emitted l) -> all_valid (st_canonical st) (emitted l) -> ascii_tags (emitted l) ->
  exists s', session ev l (new_emitter st plan) = (Ok tt, s') \/
    exists k, session ev l (new_emitter st plan) = (Err (EIo (OtherIo k)), s') /\ In k (write_failures (new_emitter st plan)).
Proof.
  intros W V A. pose proof (session_spec ev st plan l A) as H. unfold wp in H.
  destruct (session ev l (new_emitter st plan)) as [[[]|x|p|] s'] eqn:E; try contradiction.
  - exists s'. left. reflexivity.
  - exists s'. right. destruct H as [[k ->]|[_ (a & e & r & g & El & G & Va & [B|B])]].
    + exists k. split; [reflexivity|]. exact (session_failures _ _ _ _ _ E).
    + exfalso. apply prefix_grun in W. destruct W as (g2 & W). rewrite El in W. unfold data in *. rewrite map_app, grun_app, G in W. cbn [map grun] in W. rewrite B in W. discriminate.
    + exfalso. apply B. unfold all_valid in V. rewrite El in V. apply Forall_app in V. destruct V as [_ V]. inversion V; assumption.
Qed.
Corollary C25_accepts_without_failures st ev l :
  well_formed_prefix ev (emitted l) -> all_valid (st_canonical st) (emitted l) -> ascii_tags (emitted l) ->
  exists s', session ev l (new_emitter st []) = (Ok tt, s').
Proof.
  intros W V A. destruct (C25_accepts st [] ev l W V A) as (s' & [H|(k & _ & H)]); [eauto|]. rewrite failures_plan in H. destruct H.
Qed.
(** C25 and C29, soundness: when a session succeeds, its events are well-formed and valid; at most
    the last three, still waiting for the event that decides how they are written, have not been
    looked at. *)
Theorem C25_accepts_only_well_formed st plan ev l s' : ascii_tags (emitted l) ->
  session ev l (new_emitter st plan) = (Ok tt, s') ->
  exists done pending, emitted l = done ++ pending /\ (length pending <= 3)%nat /\
    well_formed_prefix ev done /\ all_valid (st_canonical st) done.
Proof.
  intros A E. pose proof (session_spec ev st plan l A) as H. unfold wp in H. rewrite E in H.
  destruct H as (a & g & El & R & G & _ & _ & V & _ & _). exists a, (em_events s'). split; [exact El|]. split; [apply pending_short, R|].
  split; [apply prefix_grun; eauto|exact V].
Qed.
(** C25, errors: when a session ends with an emitter error, the first event that is refused breaks
    the grammar or is invalid. *)
Theorem C25_errors st plan ev l m s' : ascii_tags (emitted l) ->
  session ev l (new_emitter st plan) = (Err (EEmitter m), s') ->
  exists done e rest, emitted l = done ++ e :: rest /\ well_formed_prefix ev done /\ all_valid (st_canonical st) done /\
    (~ well_formed_prefix ev (done ++ [e]) \/ ~ valid_event (st_canonical st) (e_data e)).
Proof.
  intros A E. pose proof (session_spec ev st plan l A) as H. unfold wp in H. rewrite E in H.
  destruct H as [[k H]|[_ (a & e & r & g & El & G & Va & B)]]; [discriminate H|]. exists a, e, r. split; [exact El|].
  split; [apply prefix_grun; eauto|]. split; [exact Va|]. destruct B as [B|B]; [left; eapply not_prefix; eassumption|right; exact B].
Qed.
(** C25: whatever the events, no call panics (until the first error). *)
Theorem C25_no_panic st plan ev l : ascii_tags (emitted l) ->
  match fst (session ev l (new_emitter st plan)) with
  | Ok _ | Err (EEmitter _) | Err (EIo (OtherIo _)) => True
  | _ => False
  end.
Proof.
  intros A. pose proof (session_spec ev st plan l A) as H. unfold wp in H.
  destruct (session ev l (new_emitter st plan)) as [[[]|x|p|] s']; try contradiction; cbn [fst]; [exact I|].
  destruct H as [[k ->]|[[m ->] _]]; exact I.
Qed.
(** C25: anything but STREAM-START at the beginning is refused. *)
Theorem C25_stream_start_first st plan e l s' :
  match e_data e with EvStreamStart _ => False | _ => True end -> ascii_tags (e :: l) ->
  run_calls (map CEmit (e :: l)) (new_emitter st plan) = (Ok tt, s') -> (length l <= 2)%nat.
Proof.
  intros He A E. pose proof (run_emits_spec (st_canonical st) GStart (e :: l) [] _ (new_so_far st plan) A) as H. unfold wp in H. rewrite E in H.
  destruct H as (a & g & El & R & G & _). destruct a as [|x a].
  - cbn [app] in El. apply pending_short in R. rewrite <- El in R. cbn in R. Lia.lia.
  - injection El as <- El. cbn [data map grun] in G. destruct (e_data e); try contradiction; discriminate G.
Qed.

(** At the end of a document or of the stream nothing is pending. *)
Lemma closed_flush ev st plan l es e s' : closes (e_data e) -> well_formed_prefix ev (es ++ [e]) -> ascii_tags (es ++ [e]) -> emitted l = es ++ [e] ->
  session ev l (new_emitter st plan) = (Ok tt, s') -> em_events s' = [] /\ flush s' = (Ok tt, s').
Proof.
  intros Hc W A El E. rewrite <- El in A. pose proof (session_spec ev st plan l A) as S. unfold wp in S. rewrite E in S.
  destruct S as (a & g & Ea & R & G & HI & Hg & V & _ & Hb).
  assert (Hq : em_events s' = []).
  { apply prefix_grun in W. destruct W as (g2 & W).
    assert (Hg2 : g2 = GDocs \/ g2 = GEnd).
    { unfold data in W. rewrite map_app, grun_app in W. destruct (grun GDocs (map e_data es)) as [g1|]; [|discriminate]. cbn [map grun] in W.
      destruct (gstep g1 (e_data e)) as [g3|] eqn:E3; [|discriminate]. injection W as ->. destruct (e_data e); try contradiction Hc.
      - destruct g1 as [| |ds fs|]; try discriminate E3; [injection E3 as <-; auto|]. destruct fs as [|[] [|? ?]]; discriminate E3.
      - destruct g1 as [| |ds fs|]; try discriminate E3. destruct fs as [|[] [|? ?]]; try discriminate E3. injection E3 as <-. auto. }
    rewrite <- El, Ea in W. unfold data in W. rewrite map_app, grun_app in W. unfold data in G. rewrite G in W.
    destruct (em_events s') as [|x q] eqn:Eq; [reflexivity|]. exfalso.
    destruct (pending_inside (x :: q) g g2 R ltac:(discriminate) Hg W) as (ds & fs & ->). destruct Hg2; discriminate. }
  split; [exact Hq|]. rewrite Hq, app_nil_r in Ea. rewrite El in Ea.
  assert (B : em_buffer s' = []). { apply Hb. unfold closing_last. rewrite <- Ea, last_app1. exact Hc. }
  assert (L : live s').
  { eapply GI_live; [eapply grun_not_start; [|exact G]; discriminate|exact HI]. }
  destruct L as (L1 & L2 & _). unfold flush, bind, get. destruct (em_writer s'); [|destruct (L1 eq_refl)]. rewrite B.
  destruct (em_encoding s'); [destruct (L2 eq_refl)|..]; reflexivity.
Qed.
(** C26, the end of a document or of the stream: everything has been written, and no event is
    pending. *)
Theorem C26_written_at_the_end st ev es e : closes (e_data e) -> well_formed_prefix ev (es ++ [e]) -> ascii_tags (es ++ [e]) ->
  exists t, forall enc plan l s', emitted l = es ++ [e] ->
    session ev l (new_emitter (with_encoding enc st) plan) = (Ok tt, s') ->
    em_events s' = [] /\ output s' = encoded (effective_encoding enc ev) t.
Proof.
  intros Hc W A. destruct (C26_buffering_is_transparent st ev (es ++ [e])) as (t & r & H). exists t. intros enc plan l s' El E.
  destruct (closed_flush ev (with_encoding enc st) plan l es e s' Hc W A El E) as [Hq Hf]. split; [exact Hq|].
  destruct (H enc plan l El) as (r' & s2 & E2 & _ & [[_ F]|(x & Ex & _)]); rewrite E in E2; [|congruence]. injection E2 as <- <-. exact (F s' Hf).
Qed.

(** ** C29: invalid names *)
(** The event is refused when it is looked at -- at once, or when the events that decide how it is
    written have arrived -- and nothing is written. *)
Definition unchanged_output (s s' : est) : Prop := output s' = output s /\ em_buffer s' = em_buffer s.
Lemma waits (bad : event -> est -> Prop) :
  (forall e s, bad e s -> forall q, exists m s', emit_one e (set_em_events q s) = (Err (EEmitter m), s') /\ unchanged_output s s') ->
  (forall e s q, bad e s -> bad e (set_em_events q s)) ->
  forall l s e q, bad e s -> em_events s = e :: q -> ready (e :: q) = false -> exists r s',
    run_calls (map CEmit l) s = (r, s') /\ unchanged_output s s' /\
    ((exists m, r = Err (EEmitter m)) \/ r = Ok tt /\ em_events s' = e :: q ++ l /\ (length (em_events s') <= 3)%nat).
Proof.
  intros H1 H2. induction l as [|x l IH]; intros s e q Hb He Hr; cbn [map run_calls run_call].
  - exists (Ok tt), s. split; [reflexivity|]. split; [split; reflexivity|]. right. rewrite app_nil_r, He. split; [reflexivity|]. split; [reflexivity|]. apply pending_short, Hr.
  - unfold bind at 1. rewrite emit_eq. unfold enqueue. rewrite b_modify, b_get.
    set (s1 := set_em_events (em_events s ++ [x]) s). assert (E1 : em_events s1 = e :: (q ++ [x])) by (unfold s1; rewrite He; reflexivity).
    rewrite emit_loop_step, E1. destruct (ready (e :: q ++ [x])) eqn:Er.
    + destruct (H1 e s Hb (q ++ [x])) as (m & s2 & E2 & U). unfold bind. change (set_em_events (q ++ [x]) s1) with (set_em_events (q ++ [x]) s). rewrite E2.
      eexists _, s2. split; [reflexivity|]. split; [exact U|]. left. eauto.
    + destruct (IH s1 e (q ++ [x]) (H2 _ _ _ Hb) E1 Er) as (r & s2 & E2 & U & F). exists r, s2. split; [exact E2|]. split; [exact U|].
      destruct F as [F|(F1 & F2 & F3)]; [left; exact F|right]. split; [exact F1|]. split; [|exact F3]. rewrite F2, <- app_assoc. reflexivity.
Qed.
Lemma starts (bad : event -> est -> Prop) :
  (forall e s, bad e s -> forall q, exists m s', emit_one e (set_em_events q s) = (Err (EEmitter m), s') /\ unchanged_output s s') ->
  (forall e s q, bad e s -> bad e (set_em_events q s)) ->
  forall l s e, bad e s -> em_events s = [] -> exists r s',
    run_calls (map CEmit (e :: l)) s = (r, s') /\ unchanged_output s s' /\
    ((exists m, r = Err (EEmitter m)) \/ r = Ok tt /\ em_events s' = e :: l /\ (length l <= 2)%nat).
Proof.
  intros H1 H2 l s e Hb He. cbn [map run_calls run_call]. unfold bind at 1. rewrite emit_eq. unfold enqueue. rewrite b_modify, b_get.
  set (s1 := set_em_events (em_events s ++ [e]) s). assert (E1 : em_events s1 = [e]) by (unfold s1; rewrite He; reflexivity).
  rewrite emit_loop_step, E1. destruct (ready [e]) eqn:Er.
  - destruct (H1 e s Hb []) as (m & s2 & E2 & U). unfold bind. change (set_em_events [] s1) with (set_em_events [] s). rewrite E2.
    eexists _, s2. split; [reflexivity|]. split; [exact U|]. left. eauto.
  - destruct (waits bad H1 H2 l s1 e [] (H2 _ _ _ Hb) E1 Er) as (r & s2 & E2 & U & F). exists r, s2. split; [exact E2|]. split; [exact U|].
    destruct F as [F|(F1 & F2 & F3)]; [left; exact F|right]. split; [exact F1|]. split; [exact F2|]. rewrite F2 in F3. cbn in F3. Lia.lia.
Qed.

Lemma unchanged_refl s : unchanged_output s s. Proof. split; reflexivity. Qed.
Lemma names_refused e tds s : ~ valid_names (em_canonical s) (e_data e) ->
  wp (analyze_event e tds) (fun _ _ => False) (fun x s' => s' = s /\ refuses x) (fun _ => False) s.
Proof.
  intros Hn. unfold analyze_event. apply wp_bind, wp_get. unfold valid_names in Hn.
  assert (Ht : forall (t : option str) (c : bool), ~ all (fun t : str => t <> []) (if c then t else None) ->
    wp (analyze_opt_tag t c tds) (fun _ _ => False) (fun x s' => s' = s /\ refuses x) (fun _ => False) s).
  { intros t c H. destruct c; [|exfalso; apply H; exact Logic.I]. destruct t as [t|]; [|exfalso; apply H; exact Logic.I]. cbn [analyze_opt_tag all] in *.
    apply wp_bind. unfold analyze_tag. destruct t as [|x t]; [|exfalso; apply H; discriminate]. cbn [is_empty].
    apply wp_fail. split; [reflexivity|eexists; reflexivity]. }
  destruct (e_data e) as [en| |vd tdl i|i|a|a t v pi qi st|a t i st| |a t i st|]; cbn [anchor_in written_tag all] in Hn; try (destruct Hn; split; exact Logic.I).
  - eapply wp_seq; [apply anchor_spec| |cbn beta; tauto|auto]. intros r s' (-> & _ & H). destruct Hn. split; [exact H|exact Logic.I].
  - eapply wp_seq; [apply opt_anchor_spec| |cbn beta; tauto|auto]. intros ra s' (-> & Hra).
    eapply wp_seq; [apply Ht| |auto|auto]; [|contradiction]. intros H. apply Hn. split; assumption.
  - eapply wp_seq; [apply opt_anchor_spec| |cbn beta; tauto|auto]. intros ra s' (-> & Hra).
    eapply wp_seq; [apply Ht| |auto|auto]; [|contradiction]. intros H. apply Hn. split; assumption.
  - eapply wp_seq; [apply opt_anchor_spec| |cbn beta; tauto|auto]. intros ra s' (-> & Hra).
    eapply wp_seq; [apply Ht| |auto|auto]; [|contradiction]. intros H. apply Hn. split; assumption.
Qed.
Lemma one_refused (m : M est unit) s : wp m (fun _ _ => False) (fun x s' => unchanged_output s s' /\ refuses x) (fun _ => False) s ->
  exists x s', m s = (Err (EEmitter x), s') /\ unchanged_output s s'.
Proof. unfold wp. destruct (m s) as [[a|x|p|] s']; try contradiction. intros [U [y ->]]. eauto. Qed.

(** C29: an event with an empty or ill-formed anchor or alias, or an empty tag that would be
    written: in any state of the emitter, whatever follows, nothing is written; the call that makes
    the emitter look at the event -- this one or one of the next three -- fails with an emitter
    error, and until then the calls only queue. *)
Theorem C29_invalid_names_write_nothing s e l : em_events s = [] -> ~ valid_names (em_canonical s) (e_data e) ->
  exists r s', run_calls (map CEmit (e :: l)) s = (r, s') /\ unchanged_output s s' /\
    ((exists m, r = Err (EEmitter m)) \/ r = Ok tt /\ em_events s' = e :: l /\ (length l <= 2)%nat).
Proof.
  intros He Hn. apply (starts (fun e s => ~ valid_names (em_canonical s) (e_data e))); auto. clear.
  intros e s Hb q. apply (one_refused (emit_one e) (set_em_events q s)). unfold emit_one. apply wp_bind, wp_get. cbv zeta.
  apply wp_bind, wp_modify. eapply wp_seq; [apply names_refused; exact Hb|contradiction| |auto].
  intros x s' [-> R]. split; [split; reflexivity|exact R].
Qed.
Lemma directives_refused tds : forall s, wp (iterM (fun t => analyze_tag_directive t ;; em_append_tag_directive t false) tds)
  (fun _ s' => Forall valid_directive tds /\ (NoDup (map td_handle (em_tag_directives s)) -> NoDup (map td_handle (em_tag_directives s ++ tds))))
  (fun x s' => unchanged_output s s' /\ refuses x) (fun _ => False) s.
Proof.
  induction tds as [|t tds IH]; intros s; cbn [iterM].
  - apply wp_ret. rewrite app_nil_r. auto.
  - apply wp_bind, wp_bind.
    assert (D : wp (analyze_tag_directive t) (fun _ s' => s' = s /\ valid_directive t) (fun x s' => s' = s /\ refuses x) (fun _ => False) s).
    { pose proof (directive_spec t s) as D. unfold wp in *. assert (S : snd (analyze_tag_directive t s) = s).
      { unfold analyze_tag_directive. cbv zeta. repeat match goal with |- context [if ?b then _ else _] => destruct b end; reflexivity. }
      destruct (analyze_tag_directive t s) as [[a|x|p|] s']; cbn [snd] in S; tauto. }
    eapply wp_conseq; [exact D| |cbn beta; intros x s' [-> R]; split; [apply unchanged_refl|exact R]|auto].
    intros _ s1 [-> Hv]. unfold em_append_tag_directive. apply wp_bind, wp_get.
    destruct (existsb _ _) eqn:E; [apply wp_fail; split; [apply unchanged_refl|eexists; reflexivity]|]. apply wp_modify.
    eapply wp_conseq; [apply IH| |cbn beta; intros x s' [U R]; split; [exact U|exact R]|auto].
    intros _ s3 [F Nd]. cbn [em_tag_directives set_em_tag_directives] in Nd. split; [constructor; assumption|]. intros Hd.
    rewrite <- app_assoc in Nd. cbn [app] in Nd. apply Nd. rewrite map_app. cbn [map].
    apply (NoDup_Add (a := td_handle t) (l := map td_handle (em_tag_directives s))).
    + rewrite <- (app_nil_r (map td_handle (em_tag_directives s))) at 1. apply Add_app.
    + split; [exact Hd|]. intros Hi. apply existsb_handle in Hi. congruence.
Qed.
(** C29: a DOCUMENT-START with a bad version, a bad or repeated %TAG directive, between documents:
    nothing is written, and the event is refused when it is looked at. *)
Theorem C29_invalid_directives_write_nothing s e l :
  em_events s = [] -> em_state s = EFirstDocumentStart \/ em_state s = EDocumentStart -> ~ valid_directives (e_data e) ->
  exists r s', run_calls (map CEmit (e :: l)) s = (r, s') /\ unchanged_output s s' /\
    ((exists m, r = Err (EEmitter m)) \/ r = Ok tt /\ em_events s' = e :: l /\ (length l <= 2)%nat).
Proof.
  intros He Hs Hn. apply (starts (fun e s => (em_state s = EFirstDocumentStart \/ em_state s = EDocumentStart) /\ ~ valid_directives (e_data e))); auto. clear.
  intros e s [Hs Hb] q. apply (one_refused (emit_one e) (set_em_events q s)). unfold emit_one. apply wp_bind, wp_get. cbv zeta.
  apply wp_bind, wp_modify. apply wp_bind. unfold analyze_event. apply wp_bind, wp_get. set (s1 := set_em_tag_directives [] (set_em_events q s)).
  unfold valid_directives in Hb. destruct (e_data e) as [en| |vd tds i|i|a|a t v pi qi st|a t i st| |a t i st|] eqn:Ed; try (destruct (Hb Logic.I)).
  apply wp_ret. apply wp_bind. assert (W : forall first, wp (emit_document_start e first) (fun _ _ => False) (fun x s' => unchanged_output s s' /\ refuses x) (fun _ => False) s1).
  { intros first. unfold emit_document_start. rewrite Ed. apply wp_bind.
    assert (D : wp match vd with Some v => analyze_version_directive v | None => ret tt end (fun _ s' => s' = s1 /\ all valid_version vd) (fun x s' => s' = s1 /\ refuses x) (fun _ => False) s1).
    { destruct vd as [v|]; [|split; [reflexivity|exact Logic.I]]. cbn [all]. pose proof (version_spec v s1) as D. unfold wp in *. unfold analyze_version_directive in *. destruct (_ || _); cbn in *; tauto. }
    eapply wp_conseq; [exact D| |cbn beta; intros x s' [-> R]; split; [split; reflexivity|exact R]|auto]. intros _ s2 [-> Hv].
    eapply wp_seq; [apply directives_refused| |intros x s' H; exact H|auto]. intros _ s3 [F Nd]. exfalso. apply Hb.
    split; [exact Hv|]. split; [exact F|]. apply Nd. constructor. }
  unfold em_state_machine. apply wp_bind, wp_get. change (em_state s1) with (em_state s).
  destruct Hs as [-> | ->]; (eapply wp_conseq; [apply W|contradiction| |auto]); intros x s' H; exact H.
Qed.

(** ** The hypotheses are met *)
Definition name_ok (s : str) : bool := negb (is_empty s) && forallb is_alpha_c s.
Lemma name_ok_spec s : name_ok s = true -> valid_name s.
Proof. unfold name_ok. intros H. apply andb_true_iff in H. destruct H as [H1 H2]. split; [apply is_empty_false, negb_true_iff, H1|apply alpha_names, H2]. Qed.
Example demo_well_formed : well_formed_prefix EncAny (emitted demo_calls).
Proof. apply prefix_grun. eexists. vm_compute. reflexivity. Qed.
Example demo_valid : all_valid false (emitted demo_calls) /\ ascii_tags (emitted demo_calls).
Proof.
  cbn [emitted demo_calls flat_map app]. split.
  - repeat (apply Forall_cons; [unfold valid_event, valid_names; cbn [e_data event_new anchor_in written_tag valid_directives valid_flags all negb orb andb];
      repeat apply conj; first [exact Logic.I|apply name_ok_spec; vm_compute; reflexivity|apply Forall_nil|left; reflexivity|apply NoDup_nil]|]). apply Forall_nil.
  - repeat (apply Forall_cons; [exact Logic.I|]). apply Forall_nil.
Qed.
Example demo_closes : closes (e_data (event_new EvStreamEnd)) /\
  emitted demo_calls = removelast (emitted demo_calls) ++ [event_new EvStreamEnd].
Proof. split; [exact Logic.I|vm_compute; reflexivity]. Qed.
(** Events that are refused, right after STREAM-START. *)
Definition demo_state : est := started Utf8 demo_settings [].
Example demo_start : em_events demo_state = [] /\ em_state demo_state = EFirstDocumentStart.
Proof. split; vm_compute; reflexivity. Qed.
Example demo_bad_names :
  ~ valid_names false (EvAlias (lit "a b")) /\ ~ valid_names false (EvScalar (Some []) None (lit "x") true true SPlain) /\
  ~ valid_names false (EvSequenceStart None (Some []) false SeqAny).
Proof.
  repeat split; intros [H1 H2]; cbn in *.
  - destruct H1 as [_ H1]. apply alpha_names in H1. vm_compute in H1. discriminate.
  - destruct H1 as [H1 _]. apply H1. reflexivity.
  - apply H2. reflexivity.
Qed.
Example demo_bad_directives : ~ valid_directives (EvDocumentStart (Some (Mk_vd 2 0)) [] true) /\
  ~ valid_directives (EvDocumentStart None [Mk_td (lit "!a!") (lit "x"); Mk_td (lit "!a!") (lit "y")] true).
Proof.
  split; cbn.
  - intros [[H _] _]. cbn in H. discriminate.
  - intros (_ & _ & H). inversion H as [|? ? Hi _]. apply Hi. left. reflexivity.
Qed.

Print Assumptions C25_accepts.
Print Assumptions C25_accepts_without_failures.
Print Assumptions C25_accepts_only_well_formed.
Print Assumptions C25_errors.
Print Assumptions C25_no_panic.
Print Assumptions C25_stream_start_first.
Print Assumptions C26_written_at_the_end.
Print Assumptions C29_invalid_names_write_nothing.
Print Assumptions C29_invalid_directives_write_nothing.
