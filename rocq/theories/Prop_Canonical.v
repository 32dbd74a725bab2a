(** Prop_Canonical.v -- C40: what the emitter writes in canonical mode, the parser reads back.

    The sessions are those of Prop_EmitGrammar.v: arbitrary settings (with [canonical]), an arbitrary
    fault schedule of the output handler, calls of [emit] and [flush] in any order.  The bytes may
    then come back to a parser in any chunks, with any interruptions, and UTF-8 requested or detected. *)
From Coq Require Import Lia ZifyBool ZifyNat ZifyN Bool.
From Verif Require Import Base Utf Chars State Reader Scanner Parser Wp ScanFacts RoundScan EState Emitter Document Api Spec_Tokens Spec_Scanner Spec_Reader Spec_Parser Utf8Facts ReaderFacts ReadFacts Prop_Reader Prop_Parser Chunk ChunkParse Prop_Chunk RoundCarry
  Spec_Events EventFacts IoFacts Spec_Emitter Spec_EmitNames EmitText EmitIo EmitSession EmitGrammar Prop_Emitter Prop_EmitGrammar Spec_Canonical CanonLex CanonBody CanonItems CanonEmit CanonToks CanonStep CanonRun CanonParse CanonRead.
Open Scope N_scope.

Lemma usable_all ds td : In td (all_tds ds) -> usable ds td.
Proof.
  unfold all_tds, usable. rewrite in_app_iff, filter_In. intros [H|[H1 H2]]; [left; exact H|right]. split; [exact H1|]. intros Hi. apply in_map_iff in Hi. destruct Hi as (u & E & Hu).
  apply negb_true_iff in H2. apply not_true_iff_false in H2. apply H2. apply existsb_exists. exists u. split; [exact Hu|]. apply str_eqb_eq. congruence.
Qed.
Lemma shorthand_of (x : str) : ~ In 44 x /\ ~ In 91 x /\ ~ In 93 x -> shorthand x.
Proof. intros (H1 & H2 & H3). apply Forall_forall. intros c Hc. repeat split; intros ->; auto. Qed.
Lemma tag_in_eq d : tag_in d = tag_of_event d. Proof. destruct d; reflexivity. Qed.
Lemma in_force_app a : forall ds b, in_force ds (a ++ b) = in_force (in_force ds a) b.
Proof. induction a as [|d a IH]; intros ds b; [reflexivity|]. destruct d; cbn [app in_force]; apply IH. Qed.
(** The grammar state knows the directives in force, and how deep the nesting is. *)
Definition knows (ds : list tag_directive) (n : nat) (g : gstate) : Prop := match g with GDoc ds' fs => ds' = ds /\ (colls fs <= n)%nat | _ => True end.
Lemma knows_step ds n g d g' : knows ds n g -> gstep g d = Some g' -> knows (in_force ds [d]) (S n) g'.
Proof.
  intros K H. destruct g as [| |ds' fs|]; cbn [gstep] in H.
  - destruct d; try discriminate H. injection H as <-. exact I.
  - destruct d; try discriminate H; injection H as <-; [exact I|]. cbn. split; [reflexivity|lia].
  - destruct K as [-> K].
    assert (A : forall l, after fs = Some l -> (colls l <= n)%nat).
    { intros l Hl. destruct fs as [|[] r]; try discriminate Hl; injection Hl as <-; exact K. }
    destruct fs as [|[] r].
    all: destruct d; cbn [gstep after option_map] in H; try discriminate H.
    all: try (injection H as <-; cbn [knows in_force]; first [exact I | split; [reflexivity|]; cbn in K |- *; unfold colls in *; cbn in K |- *; lia]).
    all: destruct r; try discriminate H; injection H as <-; cbn [knows in_force]; first [exact I | split; [reflexivity|]; cbn in K |- *; unfold colls in *; cbn in K |- *; lia].
  - destruct d; discriminate H.
Qed.
Lemma events_okay (all : list event_data) : abbreviable all -> Forall (fun d => valid_event true d) all -> Forall plain_data all -> N.of_nat (length all) <= 2147483647 ->
  forall l done g, all = done ++ l -> knows (in_force [] done) (length done) g -> grun g l <> None -> events_ok g l.
Proof.
  intros Ha Hv Hp Hn. induction l as [|d l IH]; intros done g E K G; [exact I|]. cbn [events_ok grun] in *.
  assert (Hd : In d all) by (rewrite E; apply in_elt). rewrite Forall_forall in Hv, Hp. pose proof (Hv d Hd) as Vd. pose proof (Hp d Hd) as Pd.
  split; [|split].
  - split; [exact Vd|]. split; [|split; [|split]].
    + destruct d; try exact I. destruct Pd as [_ Pd]. eapply Forall_impl; [|exact Pd]. intros c Hc. unfold is_scalar. cbn in Hc |- *. lia.
    + destruct d as [| | | | |? [?|]|? [?|]| |? [?|]|]; try exact I; apply Pd.
    + destruct d; try exact I. exact Pd.
    + destruct g as [| |ds fs|]; try exact I. destruct K as [-> K]. destruct (tag_in d) as [t|] eqn:Et; [|exact I]. rewrite tag_in_eq in Et. split.
      * destruct d as [| | | | |? [?|]|? [?|]| |? [?|]|]; try discriminate Et; injection Et as <-; apply Pd.
      * intros td x Htd Ex. apply shorthand_of. eapply Ha; [exact E|exact Et|apply usable_all, Htd|exact Ex].
  - destruct g as [| |ds fs|]; try exact I. destruct K as [_ K]. rewrite E, app_length in Hn. lia.
  - destruct (gstep g d) as [g'|] eqn:Eg; [|congruence]. apply (IH (done ++ [d])); [rewrite <- app_assoc; exact E| |exact G].
    rewrite in_force_app, app_length. cbn [length]. rewrite Nat.add_comm. eapply knows_step; eassumption.
Qed.
Lemma crun_toks st l tk st' : crun st l tk st' -> cg st = GDocs -> cg st' = GEnd -> l <> [EvStreamEnd] -> tk <> [].
Proof.
  intros H. destruct H as [|st d t1 st1 l t1' st2 Hs Hr]; intros H1 H2 Hl; [congruence|]. intros E. apply app_eq_nil in E. destruct E as [E _].
  destruct Hs; cbn [cg] in H1; try discriminate H1; try discriminate E.
  - destruct (_ && _); [discriminate|]. destruct (directive_toks vd tds); discriminate.
  - inversion Hr as [|? ? ? ? ? ? ? Hs2]; subst; [congruence|inversion Hs2].
Qed.

Definition delivers (i : source) (l : list byte) : Prop := error_free i /\ all_bytes i = l /\ N.of_nat (length l) < 9223372036854775807.
Theorem C40_canonical_round_trip : forall st plan ev l,
  st_canonical st = true -> effective_encoding (st_encoding st) ev = Utf8 ->
  stream_events (EvStreamStart ev :: map e_data (emitted l)) -> map e_data (emitted l) <> [EvStreamEnd] ->
  Forall (fun e => valid_event true (e_data e)) (emitted l) -> Forall (fun e => plain_data (e_data e)) (emitted l) -> abbreviable (map e_data (emitted l)) ->
  N.of_nat (length (emitted l)) <= 2147483647 ->
  exists r s', session ev l (new_emitter st plan) = (r, s') /\
  (r = Ok tt \/ exists k, r = Err (EIo (OtherIo k)) /\ In k (write_failures (new_emitter st plan))) /\
  (r = Ok tt -> forall dbg e i, delivers i (output s') -> e = Utf8 \/ e = EncAny /\ first_read_ok i ->
    exists es, map e_data es = EvStreamStart Utf8 :: reread (map e_data (emitted l)) /\
    forall k, fst (calls parser_next (length es + k) (parser_start dbg e i)) = map (fun e => Ok (Some e)) es ++ repeat (Ok None) k).
Proof.
  intros st plan ev l Hcan Henc Hst Hdoc Hv Hp Hab Hn.
  assert (G : grun GDocs (data (emitted l)) = Some GEnd) by (apply stream_grun in Hst; exact Hst).
  assert (Hat : ascii_tags (emitted l)).
  { eapply Forall_impl; [|exact Hp]. intros e He. cbv beta in He |- *. destruct (e_data e) as [| | | | |? [?|]|? [?|]| |? [?|]|]; try exact I; apply He. }
  assert (Hok : events_ok GDocs (data (emitted l))).
  { apply (events_okay (data (emitted l)) Hab) with (done := []); [unfold data; apply Forall_map, Hv|unfold data; apply Forall_map, Hp|unfold data; rewrite map_length; exact Hn|reflexivity|exact I|rewrite G; discriminate]. }
  destruct (canonical_text ev st plan l Hcan Hok G) as (its & c' & st' & ls' & Hlf & R & Hi & Hl & Hv0 & Hrun & Hend).
  set (lf := break_chars (st_break (effective ev st))) in *.
  destruct (session_outcome ev st plan l _ _ _ R) as (r & s' & E & _ & O). exists r, s'. split; [exact E|]. split.
  { destruct O as [[-> _]|(x & Hx)]; [left; reflexivity|right; exists x; exact Hx]. }
  intros ->. destruct O as [[_ O]|(x & Hx & _)]; [|discriminate Hx].
  assert (Hout : output s' = encode_utf8 (texts lf its)).
  { destruct Hst as (e0 & docs & Hd & Ed). injection Ed as _ Ed.
    assert (Hem : exists es e, emitted l = es ++ [e] /\ e_data e = EvStreamEnd).
    { destruct (emitted l) as [|e es _] using rev_ind; [destruct docs; discriminate Ed|]. exists es, e. split; [reflexivity|]. rewrite map_app in Ed. apply app_inj_tail in Ed. apply Ed. }
    destruct Hem as (es & e & Hem & He). destruct (closed_flush ev st plan l es e s') as [_ Hf]; [rewrite He; exact I| | |exact Hem|exact E|].
    - rewrite <- Hem. apply prefix_grun. eauto.
    - rewrite <- Hem. exact Hat.
    - rewrite (O s' Hf), Henc. reflexivity. }
  intros dbg e i (Hi1 & Hi2 & Hi3) He. rewrite Hout in Hi2. rewrite Hout in Hi3.
  assert (Hne : its <> []). { intros ->. eapply (crun_toks _ _ _ _ Hrun); [reflexivity|exact Hend|exact Hdoc|reflexivity]. }
  destruct (texts_head lf its Hlf Hi Hne) as (c0 & rt & Eh & Hc0).
  assert (Hyc : Forall yaml_char (texts lf its)) by (eapply Forall_impl; [|exact (texts_okc lf its Hlf Hi)]; intros ch; apply okc_yaml).
  assert (Hin : input_text e i (texts lf its)).
  { split; [exact Hi1|]. split; [exact Hyc|]. split; [rewrite Hi2; exact Hi3|]. exists (encode_utf8 (texts lf its)). split.
    - apply utf8_text_encode. split; [|reflexivity]. apply okcs_scalar, texts_okc; assumption.
    - destruct He as [-> |[-> Hf]]; [exact Hi2|]. split; [exact Hf|]. right. split; [exact Hi2|]. rewrite Eh. cbn [encode_utf8 flat_map]. unfold encode_utf8_char. replace (c0 <? 128) with true by lia. cbn [app hd]. lia. }
  assert (Hev : Forall ev_ok (data (emitted l))).
  { unfold data. apply Forall_map. eapply Forall_impl; [|exact Hv]. intros e1 (V1 & V2 & _). split; [exact V2|]. destruct V1 as [_ V1]. unfold tag_ne. destruct (e_data e1); exact V1. }
  destruct (ideal_run lf its ls' (data (emitted l)) st' dbg e i Hlf Hi Hl Hv0 Hrun Hend Hev) as (es & p' & Er & Em & Fin).
  exists es. split; [exact Em|]. intros k.
  assert (Hlen : length es = S (length (data (emitted l)))).
  { apply (f_equal fst) in Er. cbn [fst] in Er. apply (f_equal (@length _)) in Er. unfold oks in Er. rewrite map_length in Er. rewrite <- Er. clear. generalize (pwr (full (texts lf its)) (parser_start dbg e i)). generalize (S (length (data (emitted l)))).
    intros n. induction n as [|n IH]; intros p; [reflexivity|]. cbn [calls]. destruct (parser_next p) as [r p1]. specialize (IH p1). destruct (calls parser_next n p1). cbn [fst length] in *. congruence. }
  destruct (any_run (texts lf its) dbg e i (length es + k) (oks es ++ repeat (Ok None) k) p') as (p2 & E2).
  - exact Hin.
  - rewrite Eh. discriminate.
  - rewrite calls_app, Hlen, Er, (finished_calls k p' Fin). reflexivity.
  - apply Forall_app. split; [apply Forall_map, Forall_forall; intros; exact I|apply Forall_forall; intros x Hx; apply repeat_spec in Hx; subst; exact I].
  - rewrite E2. reflexivity.
Qed.
Print Assumptions C40_canonical_round_trip.

(** ** A case: two documents, directives, shorthand and verbatim tags, anchors, an alias, escapes *)
Definition demo_docs : list event_data := [
  EvDocumentStart (Some (Mk_vd 1 1)) [Mk_td (lit "!e!") (lit "tag:e,2000:")] true;
  EvMappingStart (Some (lit "top")) (Some (lit "tag:yaml.org,2002:map")) false MapBlock;
  EvScalar None (Some (lit "tag:e,2000:k")) (lit "a b" ++ [10; 233; 128512; 0]) false false SLiteral;
  EvSequenceStart None (Some (lit "x,y")) false SeqAny;
  EvScalar None None [] true false SPlain;
  EvAlias (lit "top");
  EvSequenceEnd;
  EvMappingEnd;
  EvDocumentEnd true;
  EvDocumentStart None [Mk_td (lit "!") (lit "!q")] false;
  EvScalar (Some (lit "z")) None (lit "last") false true SFolded;
  EvDocumentEnd true;
  EvStreamEnd ].
Definition demo_call_list : list call := map (fun d => CEmit (event_new d)) (firstn 4 demo_docs) ++ CFlush :: map (fun d => CEmit (event_new d)) (skipn 4 demo_docs).
Definition demo_st : settings := Mk_settings EncAny true 4 20 true BrCrLn.
Lemma demo_emitted : map e_data (emitted demo_call_list) = demo_docs. Proof. reflexivity. Qed.
Example demo_stream : stream_events (EvStreamStart EncAny :: map e_data (emitted demo_call_list)) /\ map e_data (emitted demo_call_list) <> [EvStreamEnd].
Proof. split; [apply grun_end; reflexivity|discriminate]. Qed.
Ltac demo_names := first [exact I|split; [discriminate|repeat apply Forall_cons; try apply Forall_nil; unfold name_char; cbn; lia]].
Ltac demo_flags := first [exact I|left; reflexivity|right; reflexivity].
Example demo_valid_plain : Forall (fun e => valid_event true (e_data e)) (emitted demo_call_list) /\ Forall (fun e => plain_data (e_data e)) (emitted demo_call_list) /\ N.of_nat (length (emitted demo_call_list)) <= 2147483647.
Proof.
  split; [|split; [|vm_compute; discriminate]].
  - repeat apply Forall_cons; try apply Forall_nil; (split; [split; [demo_names|first [exact I|discriminate]]|split; [|demo_flags]]); try exact I.
    + split; [split; [reflexivity|left; reflexivity]|]. split; [|apply NoDup_cons; [intros []|apply NoDup_nil]]. apply Forall_cons; [|apply Forall_nil]. split; [|discriminate]. right. exists (lit "e"). split; [reflexivity|repeat apply Forall_cons; try apply Forall_nil; unfold name_char; cbn; lia].
    + split; [exact I|]. split; [|apply NoDup_cons; [intros []|apply NoDup_nil]]. apply Forall_cons; [|apply Forall_nil]. split; [|discriminate]. left. reflexivity.
  - repeat apply Forall_cons; try apply Forall_nil; cbn; try exact I; unfold ascii_text; repeat split; repeat apply Forall_cons; try apply Forall_nil; cbn; lia.
Qed.
(** [abbreviable] can be checked. *)
Fixpoint strip (p t : str) : option str :=
  match p, t with [], _ => Some t | a :: p', b :: t' => if a =? b then strip p' t' else None | _, _ => None end.
Lemma strip_app p x : strip p (p ++ x) = Some x. Proof. induction p as [|a p IH]; [destruct x; reflexivity|]. cbn. rewrite N.eqb_refl. exact IH. Qed.
Definition abbrev_ok (ds : list tag_directive) (d : event_data) : bool :=
  match tag_of_event d with
  | None => true
  | Some t => forallb (fun td => match strip (td_prefix td) t with Some x => forallb (fun c => negb ((c =? 44) || (c =? 91) || (c =? 93))) x | None => true end) (all_tds ds)
  end.
Fixpoint abbrevs_ok (ds : list tag_directive) (l : list event_data) : bool :=
  match l with [] => true | d :: r => abbrev_ok ds d && abbrevs_ok (in_force ds [d]) r end.
Lemma all_usable ds td : usable ds td -> In td (all_tds ds).
Proof.
  unfold all_tds, usable. rewrite in_app_iff, filter_In. intros [H|[H1 H2]]; [left; exact H|right]. split; [exact H1|]. apply negb_true_iff, not_true_iff_false. intros E. apply existsb_exists in E. destruct E as (u & Hu & E).
  apply str_eqb_eq in E. apply H2. rewrite E. apply in_map, Hu.
Qed.
Lemma abbrevs_abbreviable l : abbrevs_ok [] l = true -> abbreviable l.
Proof.
  intros H before d aft t td x E Ht Hu ->. subst l. revert H Hu. generalize (@nil tag_directive). induction before as [|b before IH]; intros ds H Hu.
  - cbn [app abbrevs_ok in_force] in *. apply andb_true_iff in H. destruct H as [H _]. unfold abbrev_ok in H. rewrite Ht in H. rewrite forallb_forall in H. specialize (H td (all_usable _ _ Hu)). rewrite strip_app in H.
    rewrite forallb_forall in H. repeat split; intros Hi; specialize (H _ Hi); discriminate H.
  - cbn [app abbrevs_ok] in H. apply andb_true_iff in H. destruct H as [_ H]. apply (IH _ H). destruct b; exact Hu.
Qed.
Example demo_abbreviable : abbreviable (map e_data (emitted demo_call_list)).
Proof. apply abbrevs_abbreviable. reflexivity. Qed.
(** The text, and what is read from it one byte at a time. *)
Definition demo_output : list byte := output (snd (session EncAny demo_call_list (new_emitter demo_st []))).
Example demo_round_trip :
  fst (session EncAny demo_call_list (new_emitter demo_st [])) = Ok tt /\
  demo_output = encode_utf8 (
    lit "%YAML 1.1" ++ [13; 10] ++ lit "%TAG !e! tag:e,2000:" ++ [13; 10] ++ lit "---" ++ [13; 10] ++
    lit "&top !!map {" ++ [13; 10] ++ lit "    ? !e!k ""a b\n" ++ [233; 128512] ++ lit "\0""" ++ [13; 10] ++
    lit "    : !<x,y> [" ++ [13; 10] ++ lit "        ! """"," ++ [13; 10] ++ lit "        *top," ++ [13; 10] ++ lit "    ]," ++ [13; 10] ++ lit "}" ++ [13; 10] ++ lit "..." ++ [13; 10] ++
    lit "%TAG ! %21q" ++ [13; 10] ++ lit "---" ++ [13; 10] ++ lit "&z ""last""" ++ [13; 10]) /\
  map (fun r => match r with Ok (Some e) => Some (e_data e) | _ => None end) (fst (calls parser_next 16 (parser_start true EncAny (Mk_source [] (map (fun b => SData [b]) demo_output)))))
  = map Some (EvStreamStart Utf8 :: reread demo_docs) ++ [None; None].
Proof. vm_compute. auto. Qed.
