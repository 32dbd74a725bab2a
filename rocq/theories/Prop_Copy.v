(** Prop_Copy.v -- C45, C46: parser and emitter together.

    Copying: the events of a parser are given to an emitter, one by one, until one of them fails.
    What the parser returns the emitter accepts (C45); written in canonical mode, the copy is read
    back as the same events, up to styles (C46). *)
From Coq Require Import Lia ZifyBool ZifyNat ZifyN Bool.
From Verif Require Import Base Utf Chars State Reader Scanner Parser Wp EState Emitter Document Api Spec_Tokens Spec_Scanner Spec_Reader Spec_Parser Prop_Scanner Prop_Reader Prop_Parser
  Spec_Events EventFacts IoFacts Spec_Emitter Spec_EmitNames EmitText EmitIo EmitSession EmitGrammar Prop_Emitter Prop_EmitGrammar Spec_Canonical Prop_Canonical.
From Verif Require Spec_Lexical Prop_Lexical.
Open Scope N_scope.

(** ** What the parser returns is valid *)
Lemma in_anchors ts a : In a (anchors ts) -> exists t, In t ts /\ t_data t = TAnchor a.
Proof. unfold anchors. rewrite in_flat_map. intros (t & H & I). exists t. split; [exact H|]. destruct (t_data t); try contradiction. destruct I as [->|[]]. reflexivity. Qed.
Lemma in_aliases ts a : In a (aliases_in ts) -> exists t, In t ts /\ t_data t = TAlias a.
Proof. unfold aliases_in. rewrite in_flat_map. intros (t & H & I). exists t. split; [exact H|]. destruct (t_data t); try contradiction. destruct I as [->|[]]. reflexivity. Qed.
Lemma in_tags ts h s : In (h, s) (tags ts) -> exists t, In t ts /\ t_data t = TTag h s.
Proof. unfold tags. rewrite in_flat_map. intros (t & H & I). exists t. split; [exact H|]. destruct (t_data t); try contradiction. destruct I as [[= -> ->]|[]]. reflexivity. Qed.
Lemma in_dirs ts td : In td (tag_dirs ts) -> exists t, In t ts /\ t_data t = TTagDirective (td_handle td) (td_prefix td).
Proof. unfold tag_dirs. rewrite in_flat_map. intros (t & H & I). exists t. split; [exact H|]. destruct (t_data t); try contradiction. destruct I as [<-|[]]. reflexivity. Qed.
Lemma in_scalars ts v st : In (v, st) (scalars ts) -> exists t, In t ts /\ t_data t = TScalar v st.
Proof. unfold scalars. rewrite in_flat_map. intros (t & H & I). exists t. split; [exact H|]. destruct (t_data t); try contradiction. destruct I as [[= -> ->]|[]]. reflexivity. Qed.
Definition wf (ts : list token) : Prop := Forall (fun t => token_wf (t_data t)) ts.
Lemma wf_in ts t : wf ts -> In t ts -> token_wf (t_data t). Proof. intros F. exact (proj1 (Forall_forall _ ts) F t). Qed.

Lemma explains_names can ds ts d : explains ds ts d -> wf ts -> valid_names can d.
Proof.
  intros E F. split.
  - assert (A : forall a, anchor_in d = Some a -> valid_name a).
    { intros a Ha. destruct d; cbn [anchor_in] in Ha; try discriminate Ha.
      - injection Ha as <-. pose proof (ex_alias _ _ _ E) as X. destruct (in_aliases ts anchor) as (t & Ht & Ed); [rewrite X; left; reflexivity|].
        pose proof (wf_in _ _ F Ht) as W. rewrite Ed in W. exact W.
      - subst anchor. pose proof (ex_anchor _ _ _ E) as X. destruct (in_anchors ts a) as (t & Ht & Ed); [rewrite X; left; reflexivity|].
        pose proof (wf_in _ _ F Ht) as W. rewrite Ed in W. exact W.
      - subst anchor. pose proof (ex_anchor _ _ _ E) as X. destruct (in_anchors ts a) as (t & Ht & Ed); [rewrite X; left; reflexivity|].
        pose proof (wf_in _ _ F Ht) as W. rewrite Ed in W. exact W.
      - subst anchor. pose proof (ex_anchor _ _ _ E) as X. destruct (in_anchors ts a) as (t & Ht & Ed); [rewrite X; left; reflexivity|].
        pose proof (wf_in _ _ F Ht) as W. rewrite Ed in W. exact W. }
    destruct (anchor_in d) as [a|]; [apply A; reflexivity|exact Logic.I].
  - assert (A : forall t, tag_of d = Some t -> t <> []).
    { intros t Ht. pose proof (ex_tag _ _ _ E) as X. destruct (tags ts) as [|[h s] [|? ?]] eqn:Et; [congruence| |contradiction].
      destruct X as [X _]. destruct (in_tags ts h s) as (k & Hk & Ed); [rewrite Et; left; reflexivity|]. pose proof (wf_in _ _ F Hk) as W. rewrite Ed in W. destruct W as [_ W].
      rewrite Ht in X. symmetry in X. unfold resolved in X. destruct (is_empty h); [injection X as ->; exact W|]. destruct (find _ _) as [td|]; [|discriminate]. injection X as <-.
      intros Z. apply app_eq_nil in Z. apply W, Z. }
    assert (B : forall t, written_tag can d = Some t -> tag_of d = Some t).
    { intros t Ht. destruct d; cbn [written_tag tag_of] in *; try discriminate Ht; destruct (_ || _); congruence. }
    destruct (written_tag can d) as [t|]; [apply A, B; reflexivity|exact Logic.I].
Qed.
Lemma explains_flags ds ts d : explains ds ts d -> valid_flags d.
Proof.
  intros E. destruct d as [| | | | |a [t|] v pi qi st| | | |]; try exact Logic.I. pose proof (ex_scalar _ _ _ E) as [(_ & P & Q)|(_ & _ & _ & P & _)]; cbn.
  - destruct st; [right; apply Q; split; [discriminate|reflexivity]|left; apply P; auto|right; apply Q; split; [discriminate|reflexivity]..].
  - left. apply P. reflexivity.
Qed.
Lemma explains_handles ds ts d : explains ds ts d -> wf ts -> match d with EvDocumentStart _ tds _ => Forall valid_directive tds | _ => True end.
Proof.
  intros E F. destruct d; try exact Logic.I. pose proof (ex_dirs _ _ _ E) as X. cbn in X. apply Forall_forall. intros td Htd.
  destruct (in_dirs ts td) as (t & Ht & Ed); [rewrite X; exact Htd|]. pose proof (wf_in _ _ F Ht) as W. rewrite Ed in W. exact W.
Qed.
Lemma explained_all (Q : token -> Prop) (P : event_data -> Prop) : forall des ds tss, explained ds tss des -> Forall Q (concat tss) -> (forall ds ts d, In d des -> explains ds ts d -> Forall Q ts -> P d) -> Forall P des.
Proof.
  induction des as [|d des IH]; intros ds [|ts tss] E F H; cbn [explained] in E; try contradiction; [constructor|]. destruct E as [E1 E2].
  cbn [concat] in F. apply Forall_app in F. destruct F as [F1 F2]. constructor; [apply (H ds ts); [left; reflexivity|exact E1|exact F1]|].
  apply (IH _ _ E2 F2). intros ds' ts' d' Hd. apply H. right. exact Hd.
Qed.
Lemma gives_wf dbg e i ts : scanner_gives dbg e i ts -> wf ts.
Proof.
  intros (s & H). pose proof (C08_tokens_well_formed _ _ _ _ _ _ H) as W.
  assert (Et : tokens_of (map (fun t => Ok (Some t)) ts) = ts) by (clear; induction ts as [|t ts IH]; [reflexivity|]; cbn; f_equal; exact IH).
  rewrite Et in W. apply W. clear. induction ts; constructor; [exact Logic.I|assumption].
Qed.
Theorem parsed_valid can dbg e i n os p : calls parser_next n (parser_start dbg e i) = (os, p) -> Forall succeeded os -> all_valid can (events_of os).
Proof.
  intros H Hr. destruct (C15_events_explained_by_tokens _ _ _ _ _ _ H Hr) as (tss & G & E & _). apply gives_wf in G.
  assert (V : Forall (fun d => valid_event can d) (map e_data (events_of os))).
  { apply (explained_all _ _ _ _ _ E G). intros ds ts d Hd Ex W. split; [apply (explains_names _ _ _ _ Ex W)|]. split; [|apply (explains_flags _ _ _ Ex)].
    pose proof (explains_handles _ _ _ Ex W) as X. destruct d as [| |vo tds im| | | | | | |]; try exact Logic.I. cbn. apply in_map_iff in Hd. destruct Hd as (ev & Hev & Hin). split; [|split; [exact X|]].
    - destruct vo as [vd|]; [|exact Logic.I]. destruct (C13_versions _ _ _ _ _ _ H Hr ev vd _ _ Hin Hev) as [->| ->]; (split; [reflexivity|]); [left|right]; reflexivity.
    - apply (C14_tag_directives_distinct _ _ _ _ _ _ H Hr ev _ _ _ Hin Hev). }
  unfold all_valid. apply Forall_forall. intros ev Hin. rewrite Forall_forall in V. apply V, in_map, Hin.
Qed.
(** ** C45 *)
Lemma parsed_head dbg e i n os p e0 es : calls parser_next n (parser_start dbg e i) = (os, p) -> Forall succeeded os -> events_of os = e0 :: es ->
  exists ev, e_data e0 = EvStreamStart ev /\ well_formed_prefix ev es.
Proof.
  intros H Hr E. destruct (C10_events_follow_the_grammar _ _ _ _ _ _ H Hr) as [(rest & ev & docs & D & X) _]. rewrite E in X. cbn [map app] in X. injection X as X1 X2.
  exists ev. split; [exact X1|]. exists rest, ev, docs. split; [exact D|]. f_equal. exact X2.
Qed.
Lemma run_first e0 ev l st plan : e_data e0 = EvStreamStart ev -> run_calls (CEmit e0 :: l) (new_emitter st plan) = session ev l (new_emitter st plan).
Proof.
  intros E. rewrite session_eq. cbn [run_calls run_call]. destruct e0 as [d a b]. cbn [e_data] in E. subst d. rewrite (b_ok _ _ _ _ _ (start_ok_marks ev a b st plan)). reflexivity.
Qed.
(** Whatever the input, as long as the parser has not failed: its events, given to an emitter with
    any settings, with calls of [flush] anywhere between them, are accepted; only the output handler
    can make a call fail.  (Tags must be ASCII: C25_non_ascii_tag_panics.) *)
Theorem C45_parsed_events_can_be_emitted : forall dbg e i n os p e0 l st plan,
  calls parser_next n (parser_start dbg e i) = (os, p) -> Forall succeeded os ->
  events_of os = e0 :: emitted l -> ascii_tags (events_of os) ->
  exists r s', run_calls (CEmit e0 :: l) (new_emitter st plan) = (r, s') /\
  (r = Ok tt \/ exists k, r = Err (EIo (OtherIo k)) /\ In k (write_failures (new_emitter st plan))).
Proof.
  intros dbg e i n os p e0 l st plan H Hr E A. destruct (parsed_head _ _ _ _ _ _ _ _ H Hr E) as (ev & E0 & W). rewrite (run_first _ _ _ _ _ E0).
  pose proof (parsed_valid (st_canonical st) _ _ _ _ _ _ H Hr) as V. rewrite E in A, V.
  destruct (C25_accepts st plan ev l W (Forall_inv_tail V) (Forall_inv_tail A)) as (s' & [R|(k & R & I)]); eauto 10.
Qed.

(** ** Values are Unicode *)
Definition unicode (c : char) : Prop := c < 55296 \/ 57344 <= c < 1114112.
Lemma yaml_unicode c : yaml_char c -> unicode c.
Proof. unfold yaml_char, unicode. lia. Qed.
Lemma breaks_unicode : forall t, Forall unicode (Spec_Lexical.breaks_of t).
Proof.
  fix IH 1. intros [|c r]; [constructor|]. pose proof (IH r) as Hr. cbn [Spec_Lexical.breaks_of]. destruct (c =? 13).
  - constructor; [left; reflexivity|]. destruct r as [|d r']; [constructor|]. destruct (d =? 10); [apply IH|exact Hr].
  - clear IH. destruct ((c =? 10) || (c =? 133)); [constructor; [left; reflexivity|exact Hr]|]. destruct ((c =? 8232) || (c =? 8233)) eqn:E; [|exact Hr]. constructor; [clear Hr; left; lia|exact Hr].
Qed.
Lemma folded_unicode g : Forall unicode g -> Forall unicode (Spec_Lexical.folded g).
Proof.
  intros F. unfold Spec_Lexical.folded. pose proof (breaks_unicode g) as B. destruct (Spec_Lexical.breaks_of g) as [|c [|d r]]; [exact F| |].
  - destruct (c =? 10); [constructor; [left; reflexivity|constructor]|exact B].
  - destruct (c =? 10); [exact (Forall_inv_tail B)|exact B].
Qed.
Lemma escape_unicode w c : Spec_Lexical.escape w c -> unicode c.
Proof.
  intros [x y I|x n u v I L Hx R]; [|exact R]. cbn in I. repeat (destruct I as [[= <- <-]|I]; [left; reflexivity|]). contradiction.
Qed.
Lemma tl_unicode t : Forall unicode t -> Forall unicode (tl t). Proof. intros []; [constructor|assumption]. Qed.
Lemma reads_unicode st w v : Spec_Lexical.reads st w v -> Forall unicode w -> Forall unicode v.
Proof.
  induction 1 as [|c w v Fc Sc Dc A IH|w v Es A IH|g w v Ng Fg Nw A IH|e c w v Es He A IH|b g w v Es Bb Fg Nw A IH]; intros F.
  - constructor.
  - constructor; [exact (Forall_inv F)|exact (IH (Forall_inv_tail F))].
  - constructor; [left; reflexivity|exact (IH (Forall_inv_tail (Forall_inv_tail F)))].
  - apply Forall_app in F. destruct F as [F1 F2]. apply Forall_app. split; [apply folded_unicode, F1|apply IH, F2].
  - apply Forall_inv_tail, Forall_app in F. constructor; [apply (escape_unicode _ _ He)|apply IH, F].
  - apply Forall_inv_tail, Forall_app in F. apply Forall_app. split; [apply tl_unicode, breaks_unicode|apply IH, F].
Qed.
Lemma lines_unicode literal ls n : Forall unicode (flat_map (Spec_Lexical.line_source n) ls) -> Forall unicode (Spec_Lexical.block_value literal ls).
Proof.
  induction ls as [|l ls IH]; intros F; [constructor|]. cbn [flat_map] in F. apply Forall_app in F. destruct F as [F1 F2]. specialize (IH F2).
  unfold Spec_Lexical.line_source in F1. apply Forall_app in F1. destruct F1 as [_ F1]. apply Forall_app in F1. destruct F1 as [F0 F1]. apply Forall_app in F1. destruct F1 as [F3 F4].
  cbn [Spec_Lexical.block_value]. apply Forall_app. split; [exact F0|]. destruct ls as [|l' ls']; [constructor|]. apply Forall_app. split; [|exact IH].
  unfold Spec_Lexical.between. destruct literal; [apply Forall_app; split; apply breaks_unicode|]. destruct (_ && _); [|apply Forall_app; split; apply breaks_unicode].
  apply folded_unicode, Forall_app. auto.
Qed.
Lemma block_unicode literal w v : Spec_Lexical.block literal w v -> Forall unicode w -> Forall unicode v.
Proof.
  intros [h ch d bs cm b n e0 ls _ _ _ _ _ _ _ _ _ _] F. do 5 (apply Forall_app in F; destruct F as [_ F]).
  apply Forall_app. split; [destruct ls; [constructor|apply breaks_unicode]|]. apply Forall_app. split; [apply (lines_unicode _ _ _ F)|].
  unfold Spec_Lexical.chomped. destruct ls; [destruct ch; [constructor..|apply breaks_unicode]|]. destruct ch; [constructor|apply breaks_unicode|apply Forall_app; split; apply breaks_unicode].
Qed.
Lemma says_unicode v st w : Spec_Lexical.says (TScalar v st) w -> Forall unicode w -> Forall unicode v.
Proof.
  intros S F. inversion S; subst.
  - eapply reads_unicode; eassumption.
  - apply Forall_inv_tail, Forall_app in F. eapply reads_unicode; [eassumption|apply F].
  - apply Forall_inv_tail, Forall_app in F. eapply reads_unicode; [eassumption|apply F].
  - eapply block_unicode; [eassumption|exact (Forall_inv_tail F)].
  - eapply block_unicode; [eassumption|exact (Forall_inv_tail F)].
Qed.
Lemma covers_in T n p l q t : Spec_Lexical.covers T n p l q -> In t l -> exists a w r n', T = a ++ w ++ r /\ Spec_Lexical.says (t_data t) w /\ Spec_Lexical.delimited n' a (t_data t) w r.
Proof.
  induction 1 as [|n p g w r u l q E1 E2 E3 E4 E5 E6 IH]; intros [].
  - subst u. exists (p ++ g), w, r, n. split; [rewrite E1, <- app_assoc; reflexivity|]. auto.
  - auto.
Qed.
Lemma gives_covers dbg e i tx ts : input_text e i tx -> scanner_gives dbg e i ts -> exists q, Spec_Lexical.covers tx 0 [] ts q.
Proof.
  intros Hi (s & H).
  assert (K : forall s0, calls scanner_next (length ts) s0 = (map (fun t => Ok (Some t)) ts, s) -> calls_ok scanner_next (length ts) s0 = (map Some ts, None, s)).
  { clear. induction ts as [|t ts IH]; intros s0 H; cbn [length calls calls_ok map] in *; [injection H as ->; reflexivity|].
    destruct (scanner_next s0) as [r s1]. destruct (calls scanner_next (length ts) s1) as [os s2] eqn:E. injection H as -> -> ->. rewrite (IH _ E). reflexivity. }
  apply K in H. destruct (Prop_Lexical.C44_tokens_cover_the_text _ _ _ _ _ _ _ _ Hi H) as (q & C). exists q.
  assert (Et : Prop_Lexical.tokens_of (map Some ts) = ts) by (clear; induction ts as [|t ts IH]; [reflexivity|]; cbn; f_equal; exact IH). rewrite Et in C. exact C.
Qed.
Lemma text_unicode e i tx : input_text e i tx -> Forall unicode tx.
Proof. intros (_ & Hy & _). eapply Forall_impl; [exact yaml_unicode|exact Hy]. Qed.
(** ** C46 *)
(** Tags, and the prefixes of %TAG directives, are ASCII. *)
Definition ascii_names (d : event_data) : Prop :=
  match d with
  | EvScalar _ (Some t) _ _ _ _ | EvSequenceStart _ (Some t) _ _ | EvMappingStart _ (Some t) _ _ => ascii_text t
  | EvDocumentStart _ tds _ => Forall (fun td => ascii_text (td_prefix td)) tds
  | _ => True
  end.
Definition value_ok (t : token) : Prop :=
  match t_data t with TScalar v _ => Forall unicode v | TStreamStart e => e = Utf8 \/ e = EncAny | _ => True end.
Lemma gives_values dbg e i tx ts : input_text e i tx -> scanner_gives dbg e i ts -> Forall value_ok ts.
Proof.
  intros Hi G. destruct (gives_covers _ _ _ _ _ Hi G) as (q & C). apply Forall_forall. intros t Ht. destruct (covers_in _ _ _ _ _ _ C Ht) as (a & w & r & n' & ET & S & D).
  unfold value_ok. destruct (t_data t) eqn:Et; try exact Logic.I.
  - cbn [Spec_Lexical.delimited] in D. destruct D as [D|[D _]]; auto.
  - apply (says_unicode _ _ _ S). pose proof (text_unicode _ _ _ Hi) as F. rewrite ET in F. apply Forall_app in F. destruct F as [_ F]. apply Forall_app in F. apply F.
Qed.
Lemma parsed_values dbg e i tx n os p : input_text e i tx -> calls parser_next n (parser_start dbg e i) = (os, p) -> Forall succeeded os ->
  Forall (fun d => match d with EvScalar _ _ v _ _ _ => Forall unicode v | EvStreamStart ev => ev = Utf8 \/ ev = EncAny | _ => True end) (map e_data (events_of os)).
Proof.
  intros Hi H Hr. destruct (C15_events_explained_by_tokens _ _ _ _ _ _ H Hr) as (tss & G & E & _). pose proof (gives_values _ _ _ _ _ Hi G) as V.
  apply (explained_all _ _ _ _ _ E V). intros ds ts d Hd Ex F. destruct d; try exact Logic.I.
  - destruct (ex_stream _ _ _ Ex) as (t & -> & Et). apply Forall_inv in F. unfold value_ok in F. rewrite Et in F. exact F.
  - destruct (ex_scalar _ _ _ Ex) as [(X & _)|(_ & -> & _)]; [|constructor]. destruct (in_scalars ts value style) as (t & Ht & Et); [rewrite X; left; reflexivity|].
    rewrite Forall_forall in F. specialize (F t Ht). unfold value_ok in F. rewrite Et in F. exact F.
Qed.
Lemma abbreviable_tail ev l : abbreviable (EvStreamStart ev :: l) -> abbreviable l.
Proof. intros A before d after t td x -> Ht Hu Ex. apply (A (EvStreamStart ev :: before) d after t td x); auto. Qed.

(** Any YAML text the parser reads without error, copied in canonical mode (with calls of [flush]
    anywhere): the copying fails only if the output handler does, and what was written is read back,
    however it is delivered, as the same events up to styles and what [reread] says. *)
Theorem C46_canonical_copy : forall dbg e i tx n os p e0 l st plan,
  input_text e i tx -> calls parser_next n (parser_start dbg e i) = (os, p) -> Forall succeeded os -> existsb is_stream_end_event (events_of os) = true ->
  events_of os = e0 :: emitted l -> (2 < length (events_of os))%nat -> N.of_nat (length (events_of os)) <= 2147483647 ->
  Forall ascii_names (map e_data (events_of os)) -> abbreviable (map e_data (events_of os)) ->
  st_canonical st = true -> st_encoding st = EncAny \/ st_encoding st = Utf8 ->
  exists r s', run_calls (CEmit e0 :: l) (new_emitter st plan) = (r, s') /\
  (r = Ok tt \/ exists k, r = Err (EIo (OtherIo k)) /\ In k (write_failures (new_emitter st plan))) /\
  (r = Ok tt -> forall dbg' e' i', delivers i' (output s') -> e' = Utf8 \/ e' = EncAny /\ first_read_ok i' ->
    exists es, map e_data es = EvStreamStart Utf8 :: reread (map e_data (emitted l)) /\
    forall k, fst (calls parser_next (length es + k) (parser_start dbg' e' i')) = map (fun e => Ok (Some e)) es ++ repeat (Ok None) k).
Proof.
  intros dbg e i tx n os p e0 l st plan Hi H Hr Hend E Hlen Hmax Ha Hab Hcan Henc.
  destruct (parsed_head _ _ _ _ _ _ _ _ H Hr E) as (ev & E0 & _). rewrite (run_first _ _ _ _ _ E0).
  pose proof (parsed_valid true _ _ _ _ _ _ H Hr) as V. pose proof (parsed_values _ _ _ _ _ _ _ Hi H Hr) as U.
  destruct (C10_events_follow_the_grammar _ _ _ _ _ _ H Hr) as [_ St]. specialize (St Hend).
  rewrite E in V, U, St, Hlen, Hmax, Ha, Hab. cbn [map] in U, St, Ha, Hab. rewrite E0 in U, St, Ha, Hab.
  apply C40_canonical_round_trip.
  - exact Hcan.
  - pose proof (Forall_inv U) as Ue. cbv beta iota in Ue. destruct Henc as [-> | ->]; [|reflexivity]. destruct Ue as [-> | ->]; reflexivity.
  - exact St.
  - intros Z. apply (f_equal (@length _)) in Z. rewrite map_length in Z. cbn [length] in Z, Hlen. lia.
  - exact (Forall_inv_tail V).
  - apply Forall_inv_tail in U. apply Forall_inv_tail in Ha. clear - U Ha. induction (emitted l) as [|x es IH]; [constructor|]. cbn [map] in U, Ha.
    constructor; [|apply IH; [exact (Forall_inv_tail Ha)|exact (Forall_inv_tail U)]]. apply Forall_inv in U. apply Forall_inv in Ha. unfold plain_data. cbv beta in *.
    destruct (e_data x) as [| | | | |a [t|] v pi qi sy|a [t|]| |a [t|]|]; try exact Logic.I; try exact Ha; auto.
  - apply (abbreviable_tail _ _ Hab).
  - cbn [length] in Hmax. lia.
Qed.
(** Copying a canonical copy changes nothing more. *)
Theorem C46_canonical_copy_is_stable : forall l, reread (reread l) = reread l.
Proof.
  assert (D : forall l, directives_next (reread l) = directives_next l).
  { intros [|d l]; [reflexivity|]. destruct d; reflexivity. }
  induction l as [|d l IH]; [reflexivity|]. destruct d; cbn [reread reread_one]; rewrite ?IH; try reflexivity.
  - f_equal. f_equal. rewrite D. destruct implicit, (directives_next l); reflexivity.
  - f_equal. destruct tag as [t|]; cbn [told_tag no_tag is_bang]; [reflexivity|]. destruct quoted_implicit; reflexivity.
Qed.

(** ** The hypotheses can be met *)
Definition copy_run := calls parser_next 40 (parser_start true EncAny Prop_Lexical.lexical_source).
Notation copy_events := (events_of (fst copy_run)).
Definition copy_calls : list call := flat_map (fun e => [CFlush; CEmit e]) (tl copy_events).
Example copy_parsed : Forall succeeded (fst copy_run) /\ existsb is_stream_end_event copy_events = true /\ length copy_events = 21%nat /\ abbreviable (map e_data copy_events) /\ Forall ascii_names (map e_data copy_events) /\
  exists e0, copy_events = e0 :: emitted copy_calls.
Proof.
  split; [unfold copy_run; match goal with |- Forall _ ?x => let t := eval vm_compute in x in change x with t end; repeat apply Forall_cons; try apply Forall_nil; exact Logic.I|].
  split; [vm_compute; reflexivity|]. split; [vm_compute; reflexivity|]. split; [apply abbrevs_abbreviable; vm_compute; reflexivity|]. split.
  - match goal with |- Forall _ ?x => let t := eval vm_compute in x in change x with t end. repeat apply Forall_cons; try apply Forall_nil; try exact Logic.I; reflexivity.
  - eexists. vm_compute. reflexivity.
Qed.
Definition copy_output : list byte := output (snd (run_calls (match copy_events with e0 :: _ => CEmit e0 :: copy_calls | [] => [] end) (new_emitter demo_st []))).
Example copy_copied : copy_output = encode_utf8 (
    lit "%YAML 1.1" ++ [13; 10] ++
    lit "---" ++ [13; 10] ++
    lit "!!map {" ++ [13; 10] ++
    lit "    ? ! ""a b" ++ [233] ++ lit """" ++ [13; 10] ++
    lit "    : [" ++ [13; 10] ++
    lit "        ! ""1""," ++ [13; 10] ++
    lit "        ""it's""," ++ [13; 10] ++
    lit "        &x """ ++ [233] ++ lit """," ++ [13; 10] ++
    lit "        {" ++ [13; 10] ++
    lit "            ? *x" ++ [13; 10] ++
    lit "            : ! ""y""," ++ [13; 10] ++
    lit "        }," ++ [13; 10] ++
    lit "    ]," ++ [13; 10] ++
    lit "    ? [" ++ [13; 10] ++
    lit "        "" l1""," ++ [13; 10] ++
    lit "        ! ""p q""," ++ [13; 10] ++
    lit "    ]" ++ [13; 10] ++
    lit "    : ! """"," ++ [13; 10] ++
    lit "}" ++ [13; 10] ++
    lit "..." ++ [13; 10]).
Proof. vm_compute. reflexivity. Qed.
Lemma copy_input : calls parser_next 40 (parser_start true EncAny Prop_Lexical.lexical_source) = (fst copy_run, snd copy_run).
Proof. unfold copy_run. generalize (calls parser_next 40 (parser_start true EncAny Prop_Lexical.lexical_source)). intros [a b]. reflexivity. Qed.
Example copy_theorem : exists e0 s', copy_events = e0 :: emitted copy_calls /\ run_calls (CEmit e0 :: copy_calls) (new_emitter demo_st []) = (Ok tt, s') /\
  forall dbg' e' i', delivers i' (output s') -> e' = Utf8 \/ e' = EncAny /\ first_read_ok i' ->
    exists es, map e_data es = EvStreamStart Utf8 :: reread (map e_data (emitted copy_calls)) /\
    forall k, fst (calls parser_next (length es + k) (parser_start dbg' e' i')) = map (fun e => Ok (Some e)) es ++ repeat (Ok None) k.
Proof.
  destruct copy_parsed as (P1 & P2 & P3 & P4 & P5 & e0 & P6). exists e0.
  pose proof (C46_canonical_copy _ _ _ _ _ _ _ e0 copy_calls demo_st [] Prop_Lexical.lexical_demo_input copy_input P1 P2 P6) as T.
  rewrite P3 in T.
  destruct T as (r & s' & R & F & K); [repeat constructor|intros Z; discriminate Z|exact P5|exact P4|reflexivity|left; reflexivity|].
  destruct F as [->|(k & _ & F)]; [|vm_compute in F; destruct F]. exists s'. auto.
Qed.
Print Assumptions C45_parsed_events_can_be_emitted.
Print Assumptions C46_canonical_copy.
Print Assumptions C46_canonical_copy_is_stable.
