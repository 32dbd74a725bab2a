(** Prop_Layout.v -- C47: what the emitter writes in block or flow layout, the parser reads back.

    The counterpart of C40 without [canonical]: any settings, an arbitrary fault schedule of the
    output handler, calls of [emit] and [flush] in any order, any nesting of block and flow
    collections, plain, single-quoted, double-quoted and literal scalars.  The bytes may then come back to a
    parser in any chunks, with any interruptions, and UTF-8 requested or detected. *)
From Coq Require Import Lia ZifyBool ZifyNat ZifyN Bool.
From Verif Require Import Base Utf Chars State Reader Scanner Parser Wp ScanFacts RoundScan EState Emitter Document Api Spec_Tokens Spec_Scanner Spec_Reader Spec_Parser Utf8Facts ReaderFacts ReadFacts Prop_Reader Prop_Parser Chunk ChunkParse Prop_Chunk RoundCarry
  Spec_Events EventFacts IoFacts Spec_Emitter Spec_EmitNames EmitText EmitIo EmitSession EmitGrammar Prop_Emitter Prop_EmitGrammar Spec_Canonical CanonLex CanonBody LayItems LayScan Spec_Layout LayToks LayParse LayNode LayRun LayRead.
From Verif Require CanonRead CanonStep Prop_Canonical EmitFolded.
Open Scope N_scope.

Lemma nesting_app a : forall b, nesting (a ++ b) = (nesting a + nesting b)%Z.
Proof. induction a as [|d a IH]; intros b; [reflexivity|]. destruct d; cbn [app nesting]; rewrite IH; lia. Qed.
(** The grammar state knows the directives in force and the nesting. *)
Definition knows (ds : list tag_directive) (n : Z) (g : gstate) : Prop := match g with GDoc ds' fs => ds' = ds /\ Z.of_nat (length fs) = (n + 1)%Z | GDocs => n = 0%Z | _ => True end.
Lemma knows_step ds n g d g' : g_ok g -> knows ds n g -> gstep g d = Some g' -> g <> GStart -> knows (in_force ds [d]) (n + nesting [d]) g'.
Proof.
  intros Hg K H Hn. destruct g as [| |ds' fs|]; cbn [gstep] in H.
  - congruence.
  - cbn [knows] in K. subst n. destruct d; try discriminate H; injection H as <-; [exact I|]. split; reflexivity.
  - destruct K as [-> K]. cbn [g_ok] in Hg.
    assert (A : forall l, after fs = Some l -> length l = length fs).
    { intros l Hl. destruct fs as [|[] r]; try discriminate Hl; injection Hl as <-; reflexivity. }
    destruct d; cbn [nesting in_force].
    + destruct fs as [|[] [|? ?]]; discriminate H.
    + destruct fs as [|[] [|? ?]]; discriminate H.
    + destruct fs as [|[] [|? ?]]; discriminate H.
    + destruct fs as [|[] [|? ?]]; try discriminate H. injection H as <-. cbn [knows length] in *. lia.
    + assert (H' : option_map (GDoc ds) (after fs) = Some g') by (destruct fs as [|[] [|? ?]]; exact H). destruct (after fs) as [l|]; [|discriminate H']. injection H' as <-. split; [reflexivity|]. rewrite (A l eq_refl). lia.
    + assert (H' : option_map (GDoc ds) (after fs) = Some g') by (destruct fs as [|[] [|? ?]]; exact H). destruct (after fs) as [l|]; [|discriminate H']. injection H' as <-. split; [reflexivity|]. rewrite (A l eq_refl). lia.
    + assert (H' : option_map (fun l => GDoc ds (FSeq :: l)) (after fs) = Some g') by (destruct fs as [|[] [|? ?]]; exact H). destruct (after fs) as [l|]; [|discriminate H']. injection H' as <-. split; [reflexivity|]. cbn [length]. rewrite (A l eq_refl). lia.
    + destruct fs as [|[] r]; try discriminate H; [destruct r; discriminate H..|]. injection H as <-. split; [reflexivity|]. cbn [length] in K. lia.
    + assert (H' : option_map (fun l => GDoc ds (FKey :: l)) (after fs) = Some g') by (destruct fs as [|[] [|? ?]]; exact H). destruct (after fs) as [l|]; [|discriminate H']. injection H' as <-. split; [reflexivity|]. cbn [length]. rewrite (A l eq_refl). lia.
    + destruct fs as [|[] r]; try discriminate H; [destruct r; discriminate H..|]. injection H as <-. split; [reflexivity|]. cbn [length] in K. lia.
  - destruct d; discriminate H.
Qed.
Lemma visible_blank vd tds i d l : visible_root (EvDocumentStart vd tds i :: d :: l) -> vd = None -> tds = [] -> i = true -> ~ blank_scalar d.
Proof.
  intros H -> -> -> B. unfold blank_scalar in B. destruct d as [| | | | |[a|] t [|ch v] pi qi sty| | | |]; try contradiction B. destruct B as (_ & -> & [-> | ->]); exact H.
Qed.
(** What is left of the stream, and the flags. *)
Definition flagged (done : list event_data) (p : bool * bool) : Prop :=
  (fst p = true -> done = []) /\ (snd p = true -> done = [EvDocumentStart None [] true]).
Lemma flagged_step done p d : flagged done p -> flagged (done ++ [d]) (fl p d).
Proof.
  intros [H _]. split; [discriminate|]. cbn [fl snd]. destruct d as [| |[?|] [|? ?] []| | | | | | |]; try discriminate. intros E. rewrite (H E). reflexivity.
Qed.
Lemma events_okay (all : list event_data) : abbreviable all -> Forall (fun d => valid_event false d) all -> Forall plain_data all -> Forall foldable all -> shallow all -> visible_root all ->
  forall l done g p, all = done ++ l -> knows (in_force [] done) (nesting done) g -> g_ok g -> g <> GStart -> flagged done p -> grun g l <> None -> events_ok g p l.
Proof.
  intros Ha Hv Hp Hb Hn Hr. induction l as [|d l IH]; intros done g p E K Gk Gs Fl G; [exact I|]. cbn [events_ok grun] in *.
  assert (Hd : In d all) by (rewrite E; apply in_elt). rewrite Forall_forall in Hv, Hp, Hb. pose proof (Hv d Hd) as Vd. pose proof (Hp d Hd) as Pd. pose proof (Hb d Hd) as Bd.
  assert (Tg : forall t, written_tag false d = Some t -> tag_of_event d = Some t).
  { intros t Ht. destruct d; try discriminate Ht; cbn [written_tag] in Ht; destruct (_ || _); try discriminate Ht; exact Ht. }
  assert (At : forall t, written_tag false d = Some t -> ascii t).
  { intros t Ht. apply Tg in Ht. destruct d as [| | | | |? [?|]|? [?|]| |? [?|]|]; try discriminate Ht; injection Ht as <-; apply Pd. }
  split; [|split; [|split]].
  - split; [exact Vd|]. split; [|split; [exact Bd|split; [|split]]].
    + destruct d; try exact I. destruct Pd as [_ Pd]. eapply Forall_impl; [|exact Pd]. intros c Hc. unfold is_scalar. cbn in Hc |- *. lia.
    + destruct (written_tag false d) as [t|] eqn:Et; [exact (At t eq_refl)|exact I].
    + destruct d; try exact I. exact Pd.
    + destruct g as [| |ds fs|]; try exact I. destruct K as [-> K]. destruct (written_tag false d) as [t|] eqn:Et; [|exact I]. split; [exact (At t eq_refl)|].
      intros td x Htd Ex. apply Prop_Canonical.shorthand_of. eapply Ha; [exact E|exact (Tg t eq_refl)|apply Prop_Canonical.usable_all, Htd|exact Ex].
  - intros Es. destruct Fl as [_ Fl]. rewrite (Fl Es) in E. subst all. exact (visible_blank _ _ _ _ _ Hr eq_refl eq_refl eq_refl).
  - destruct g as [| |ds fs|]; try exact I. destruct K as [_ K]. specialize (Hn done (d :: l) E). lia.
  - destruct (gstep g d) as [g'|] eqn:Eg; [|congruence]. apply (IH (done ++ [d])); [rewrite <- app_assoc; exact E| |exact (gstep_ok _ _ _ Gk Eg)| |apply flagged_step, Fl|exact G].
    + rewrite Prop_Canonical.in_force_app, nesting_app. eapply knows_step; eassumption.
    + intros ->. destruct g as [| |ds fs|]; [congruence|destruct d; discriminate Eg| |destruct d; discriminate Eg].
      destruct d; cbn [gstep] in Eg; destruct fs as [|[] [|? ?]]; cbn [after option_map] in Eg; discriminate Eg.
Qed.
(** A document leaves a trace. *)
Lemma lcrun_none st l st' : lcrun st l [] st' -> l = [] /\ st = st' \/ exists d l1 st1, l = d :: l1 /\ lcstep st d [] st1 /\ lcrun st1 l1 [] st'.
Proof.
  intros H. remember ([] : list token_data) as tk eqn:E. destruct H as [|st d t st1 l t' st2 Hs Hr]; [left; auto|]. apply app_eq_nil in E. destruct E as [-> ->]. right. exists d, l, st1. auto.
Qed.
Lemma lcstep_first f r ds d tk s : lcstep (LT (LDoc ds (f :: r)) true false) d tk s -> match f with LSeq _ | LKey _ => tk <> [] | _ => True end.
Proof.
  intros K. inversion K as [| | | |ds' f' r' first' oe' d' tk' a Hf Hd Ha Hsh|ds' k r' first' oe' tk' Hk|ds' b r' first' oe' tk' Hk]; subst.
  - exact I.
  - destruct f as [| |[]|[]|]; try exact I; discriminate.
  - destruct k; try discriminate Hk; injection Hk as <-; discriminate.
  - destruct b; try discriminate Hk; injection Hk as <-; discriminate.
Qed.
Lemma lcstep_docs d st : lcstep (LT (LDocs true) false false) d [] st -> d = EvStreamEnd /\ lg st = LEndS \/ st = LT (LDoc [] [LRoot true]) false false.
Proof.
  intros H. remember (LT (LDocs true) false false) as s0 eqn:Es. remember ([] : list token_data) as tk eqn:E. destruct H; try discriminate Es; auto.
  exfalso. injection Es as -> -> ->. cbn [andb app] in E. destruct (directive_toks vd tds); discriminate E.
Qed.
Lemma lcstep_root d st : lcstep (LT (LDoc [] [LRoot true]) false false) d [] st -> match lg st with LDoc ds ((LSeq _ | LKey _) :: _) => lfirst st = true /\ lopen st = false | _ => False end.
Proof.
  intros H. remember (LT (LDoc [] [LRoot true]) false false) as s0 eqn:Es. remember ([] : list token_data) as tk eqn:E.
  destruct H as [| | | |ds f r first oe d tk a Hf Hn Ha Hs|ds k r first oe tk Hk|ds b r first oe tk Hk]; try discriminate Es. injection Es as -> -> -> -> ->. cbn [llead app] in E. subst tk. cbn [lg push_act shows] in *.
  destruct a; cbn [push_act opens_act lfirst lopen]; auto; exfalso.
  - remember ([] : list token_data) as tk eqn:E. remember NLeaf as a eqn:Ea. destruct Hn; try discriminate Ea; [discriminate E|]. repeat (apply app_eq_nil in E; destruct E as [_ E]). discriminate E.
  - apply Hs; reflexivity.
Qed.
Lemma lcrun_toks l tk st' : lcrun (LT (LDocs true) false false) l tk st' -> lg st' = LEndS -> l <> [EvStreamEnd] -> tk <> [].
Proof.
  intros H He Hl ->. destruct (lcrun_none _ _ _ H) as [[_ <-]|(d & l1 & st1 & -> & Hs & Hr)]; [discriminate He|].
  destruct (lcstep_docs _ _ Hs) as [[-> E1]| ->].
  - destruct (lcrun_none _ _ _ Hr) as [[-> _]|(d2 & l2 & st2 & -> & Hs2 & _)]; [congruence|]. destruct Hs2; discriminate E1.
  - destruct (lcrun_none _ _ _ Hr) as [[_ <-]|(d2 & l2 & st2 & -> & Hs2 & Hr2)]; [discriminate He|]. pose proof (lcstep_root _ _ Hs2) as K. destruct st2 as [g2 f2 o2]. cbn [lg lfirst lopen] in K.
    destruct g2 as [|ds [|f r]|]; try contradiction K.
    destruct (lcrun_none _ _ _ Hr2) as [[_ <-]|(d3 & l3 & st3 & -> & Hs3 & Hr3)]; [cbn [lg] in He; discriminate He|].
    destruct f; try contradiction K; destruct K as [-> ->]; exact (lcstep_first _ _ _ _ _ _ Hs3 eq_refl).
Qed.

Lemma told_length l l' : Forall2 told l l' -> length l = length l'.
Proof. induction 1; cbn [length]; congruence. Qed.

(** ** C47 *)
Theorem C47_layout_round_trip : forall st plan ev l,
  st_canonical st = false -> effective_encoding (st_encoding st) ev = Utf8 ->
  stream_events (EvStreamStart ev :: map e_data (emitted l)) -> map e_data (emitted l) <> [EvStreamEnd] ->
  Forall (fun e => valid_event false (e_data e)) (emitted l) -> Forall (fun e => plain_data (e_data e)) (emitted l) -> abbreviable (map e_data (emitted l)) ->
  Forall (fun e => foldable (e_data e)) (emitted l) -> shallow (map e_data (emitted l)) -> visible_root (map e_data (emitted l)) ->
  exists r s', session ev l (new_emitter st plan) = (r, s') /\
  (r = Ok tt \/ exists k, r = Err (EIo (OtherIo k)) /\ In k (write_failures (new_emitter st plan))) /\
  (r = Ok tt -> forall dbg e i, Prop_Canonical.delivers i (output s') -> e = Utf8 \/ e = EncAny /\ first_read_ok i /\ hd 0 (output s') <> 239 ->
    exists es, Forall2 told (EvStreamStart Utf8 :: map e_data (emitted l)) (map e_data es) /\
    forall k, fst (calls parser_next (length es + k) (parser_start dbg e i)) = map (fun e => Ok (Some e)) es ++ repeat (Ok None) k).
Proof.
  intros st plan ev l Hcan Henc Hst Hdoc Hv Hp Hab Hnb Hsh Hroot.
  assert (G : grun GDocs (data (emitted l)) = Some GEnd) by (apply stream_grun in Hst; exact Hst).
  assert (Hat : ascii_tags (emitted l)).
  { eapply Forall_impl; [|exact Hp]. intros e He. cbv beta in He |- *. destruct (e_data e) as [| | | | |? [?|]|? [?|]| |? [?|]|]; try exact I; apply He. }
  assert (Hok : events_ok GDocs (true, false) (data (emitted l))).
  { apply (events_okay (data (emitted l)) Hab) with (done := []); [unfold data; apply Forall_map, Hv|unfold data; apply Forall_map, Hp|unfold data; apply Forall_map, Hnb|exact Hsh|exact Hroot|reflexivity|reflexivity|exact I|discriminate|split; [reflexivity|discriminate]|rewrite G; discriminate]. }
  destruct (layout_text ev st plan l Hcan Hok G) as (its & c' & st' & ls' & tk & Hlf & R & Hi & Hl & Hv0 & Hrun & Hend).
  set (lf := break_chars (st_break (effective ev st))) in *.
  destruct (session_outcome ev st plan l _ _ _ R) as (r & s' & E & _ & O). exists r, s'. split; [exact E|]. split.
  { destruct O as [[-> _]|(x & Hx)]; [left; reflexivity|right; exists x; exact Hx]. }
  intros ->. destruct O as [[_ O]|(x & Hx & _)]; [|discriminate Hx].
  assert (Hout : output s' = encode_utf8 (texts lf its)).
  { destruct Hst as (e0 & docs & Hd & Ed). injection Ed as _ Ed.
    assert (Hem : exists es e, emitted l = es ++ [e] /\ e_data e = EvStreamEnd).
    { destruct (emitted l) as [|e es _] using rev_ind; [destruct docs; discriminate Ed|]. exists es, e. split; [reflexivity|]. rewrite map_app in Ed. apply app_inj_tail in Ed. apply Ed. }
    destruct Hem as (es & e & Hem & He). destruct (closed_flush ev st plan l es e s') as [_ Hf]; [rewrite He; exact I| | |exact Hem|exact E|].
    - rewrite <- Hem. apply prefix_grun. eauto.
    - rewrite <- Hem. exact Hat.
    - rewrite (O s' Hf), Henc. reflexivity. }
  intros dbg e i (Hi1 & Hi2 & Hi3) He. rewrite Hout in Hi2, Hi3, He.
  assert (Hne : texts lf its <> []). { intros Ht. apply (lcrun_toks _ _ _ Hrun Hend Hdoc). exact (no_text lf its Hlf Hi Ht ls0 ls' tk eq_refl Hl). }
  assert (Hyc : Forall yaml_char (texts lf its)) by (eapply Forall_impl; [|exact (texts_okc lf its Hlf Hi)]; intros ch; apply okc_yaml).
  assert (Hin : input_text e i (texts lf its)).
  { split; [exact Hi1|]. split; [exact Hyc|]. split; [rewrite Hi2; exact Hi3|]. exists (encode_utf8 (texts lf its)). split.
    - apply utf8_text_encode. split; [|reflexivity]. apply okcs_scalar, texts_okc; assumption.
    - destruct He as [-> |[-> [Hf Hh]]]; [exact Hi2|]. split; [exact Hf|]. right. split; [exact Hi2|exact Hh]. }
  assert (Hev : Forall ev_ok (data (emitted l))).
  { unfold data. apply Forall_map. eapply Forall_impl; [|exact Hv]. intros e1 (V1 & V2 & _). split; [exact V2|]. destruct V1 as [_ V1]. unfold tag_ne. rewrite kept_written in V1. destruct (e_data e1); exact V1. }
  destruct (ideal_run lf its ls' tk (data (emitted l)) st' dbg e i Hlf Hi Hl Hv0 Hrun Hend Hev) as (es & p' & Er & Em & Fin).
  exists es. split; [exact Em|]. intros k.
  assert (Hlen : length es = S (length (data (emitted l)))).
  { apply told_length in Em. rewrite map_length in Em. symmetry. exact Em. }
  destruct (CanonRead.any_run (texts lf its) dbg e i (length es + k) (CanonRead.oks es ++ repeat (Ok None) k) p') as (p2 & E2).
  - exact Hin.
  - exact Hne.
  - rewrite CanonRead.calls_app, Hlen, Er, (CanonRead.finished_calls k p' Fin). reflexivity.
  - apply Forall_app. split; [apply Forall_map, Forall_forall; intros; exact I|apply Forall_forall; intros x Hx; apply repeat_spec in Hx; subst; exact I].
  - rewrite E2. reflexivity.
Qed.
Print Assumptions C47_layout_round_trip.

(** ** A case: block and flow collections in each other, simple and complex keys, scalars over several lines, three documents *)
Definition demo_docs : list event_data := [
  EvDocumentStart None [] true;
  EvMappingStart None (Some (lit "x")) true MapBlock;
  EvScalar None None (lit "key") true false SPlain;
  EvSequenceStart (Some (lit "a")) None true SeqBlock;
  EvScalar None None (lit "some plain words that are folded") true true SAny;
  EvMappingStart None (Some (lit "tag:yaml.org,2002:map")) false MapFlow;
  EvScalar None (Some (lit "!k")) (lit "it's") false false SPlain;
  EvSequenceStart None None true SeqAny;
  EvScalar None None (lit "x: y, [z]") true true SPlain;
  EvSequenceEnd;
  EvSequenceStart None None true SeqFlow;
  EvSequenceEnd;
  EvScalar None None [] true false SPlain;
  EvMappingEnd;
  EvMappingStart None None true MapBlock;
  EvSequenceStart None None true SeqBlock;
  EvScalar None None (lit "in a key" ++ [10] ++ lit "that is long") true true SSingle;
  EvSequenceEnd;
  EvScalar (Some (lit "b")) None [] true true SPlain;
  EvScalar None None (lit "-" ++ [233; 0]) true true SAny;
  EvAlias (lit "a");
  EvMappingEnd;
  EvSequenceEnd;
  EvScalar None None (lit "text") true true SLiteral;
  EvScalar (Some (lit "c")) None (lit "  two" ++ [10; 10] ++ lit "lines") true true SLiteral;
  EvScalar None None (lit "folded") true true SFolded;
  EvScalar None None (lit "many words that are put on lines" ++ [10] ++ lit "and more" ++ [10; 10]) true true SFolded;
  EvMappingEnd;
  EvDocumentEnd true;
  EvDocumentStart (Some (Mk_vd 1 2)) [Mk_td (lit "!e!") (lit "tag:e,2000:")] true;
  EvScalar None (Some (lit "tag:e,2000:t")) (lit "---") false false SPlain;
  EvDocumentEnd false;
  EvDocumentStart None [] true;
  EvScalar None None (lit "a" ++ [10; 10]) true true SLiteral;
  EvDocumentEnd true;
  EvStreamEnd ].
Definition demo_call_list : list call := map (fun d => CEmit (event_new d)) (firstn 9 demo_docs) ++ CFlush :: map (fun d => CEmit (event_new d)) (skipn 9 demo_docs).
Definition demo_st : settings := Mk_settings EncAny false 3 24 false BrLn.
Lemma demo_emitted : map e_data (emitted demo_call_list) = demo_docs. Proof. reflexivity. Qed.
Example demo_stream : stream_events (EvStreamStart EncAny :: map e_data (emitted demo_call_list)) /\ map e_data (emitted demo_call_list) <> [EvStreamEnd].
Proof. split; [apply grun_end; reflexivity|discriminate]. Qed.
Ltac demo_names := first [exact I|split; [discriminate|repeat apply Forall_cons; try apply Forall_nil; unfold name_char; cbn; lia]].
Ltac demo_flags := first [exact I|left; reflexivity|right; reflexivity].
Example demo_valid : Forall (fun e => valid_event false (e_data e)) (emitted demo_call_list).
Proof.
  repeat apply Forall_cons; try apply Forall_nil; (split; [split; [demo_names|first [exact I|discriminate]]|split; [|demo_flags]]); try exact I.
  - split; [exact I|]. split; [apply Forall_nil|apply NoDup_nil].
  - split; [split; [reflexivity|right; reflexivity]|]. split; [|apply NoDup_cons; [intros []|apply NoDup_nil]]. apply Forall_cons; [|apply Forall_nil]. split; [|discriminate]. right. exists (lit "e"). split; [reflexivity|repeat apply Forall_cons; try apply Forall_nil; unfold name_char; cbn; lia].
  - split; [exact I|]. split; [apply Forall_nil|apply NoDup_nil].
Qed.
Example demo_plain : Forall (fun e => plain_data (e_data e)) (emitted demo_call_list) /\ Forall (fun e => foldable (e_data e)) (emitted demo_call_list).
Proof.
  split; repeat apply Forall_cons; try apply Forall_nil; cbn; try exact I; try discriminate; try (apply EmitFolded.always_tested; vm_compute; reflexivity); unfold ascii_text; repeat split; repeat apply Forall_cons; try apply Forall_nil; cbn; lia.
Qed.
Lemma nesting_length l : (nesting l <= Z.of_nat (length l))%Z.
Proof. induction l as [|d l IH]; [reflexivity|]. cbn [length]. destruct d; cbn [nesting]; lia. Qed.
Lemma short_shallow l : (Z.of_nat (length l) < 214748364)%Z -> shallow l.
Proof. intros H before rest ->. rewrite app_length in H. pose proof (nesting_length before). lia. Qed.
Example demo_rest : abbreviable (map e_data (emitted demo_call_list)) /\ shallow (map e_data (emitted demo_call_list)) /\ visible_root (map e_data (emitted demo_call_list)).
Proof. split; [apply Prop_Canonical.abbrevs_abbreviable; reflexivity|]. split; [apply short_shallow; reflexivity|exact I]. Qed.
(** The text, and what is read from it one byte at a time. *)
Definition demo_output : list byte := output (snd (session EncAny demo_call_list (new_emitter demo_st []))).
Example demo_text : fst (session EncAny demo_call_list (new_emitter demo_st [])) = Ok tt /\
  demo_output = encode_utf8 (
    lit "key: &a" ++ [10] ++ lit "- some plain words that are" ++ [10] ++ lit "   folded" ++ [10] ++
    lit "- !!map {!k it's: ['x: y," ++ [10] ++ lit "         [z]'], []: ! ''}" ++ [10] ++
    lit "-  ?  - 'in a key" ++ [10; 10] ++ lit "         that is long'" ++ [10] ++ lit "   : &b" ++ [10] ++
    lit "   ""-\xE9\0"": *a" ++ [10] ++ lit """text"": &c |3-" ++ [10] ++ lit "     two" ++ [10; 10] ++ lit "   lines" ++ [10] ++ lit """folded"": >+" ++ [10] ++ lit "   many words that are put" ++ [10] ++ lit "   on lines" ++ [10; 10] ++ lit "   and more" ++ [10; 10] ++ lit "..." ++ [10] ++ lit "%YAML 1.2" ++ [10] ++ lit "%TAG !e! tag:e,2000:" ++ [10] ++ lit "--- !e!t '---'" ++ [10] ++ lit "..." ++ [10] ++ lit "--- |+" ++ [10] ++ lit "   a" ++ [10; 10] ++ lit "..." ++ [10]).
Proof. vm_compute. auto. Qed.
Example demo_back :
  map (fun r => match r with Ok (Some e) => Some (e_data e) | _ => None end) (fst (calls parser_next 39 (parser_start true EncAny (Mk_source [] (map (fun b => SData [b]) demo_output)))))
  = map Some [
  EvStreamStart Utf8;
  EvDocumentStart None [] true;
  EvMappingStart None None true MapBlock;
  EvScalar None None (lit "key") true false SPlain;
  EvSequenceStart (Some (lit "a")) None true SeqBlock;
  EvScalar None None (lit "some plain words that are folded") true false SPlain;
  EvMappingStart None (Some (lit "tag:yaml.org,2002:map")) false MapFlow;
  EvScalar None (Some (lit "!k")) (lit "it's") false false SPlain;
  EvSequenceStart None None true SeqFlow;
  EvScalar None None (lit "x: y, [z]") false true SSingle;
  EvSequenceEnd;
  EvSequenceStart None None true SeqFlow;
  EvSequenceEnd;
  EvScalar None (Some (lit "!")) [] true false SSingle;
  EvMappingEnd;
  EvMappingStart None None true MapBlock;
  EvSequenceStart None None true SeqBlock;
  EvScalar None None (lit "in a key" ++ [10] ++ lit "that is long") false true SSingle;
  EvSequenceEnd;
  EvScalar (Some (lit "b")) None [] true false SPlain;
  EvScalar None None (lit "-" ++ [233; 0]) false true SDouble;
  EvAlias (lit "a");
  EvMappingEnd;
  EvSequenceEnd;
  EvScalar None None (lit "text") false true SDouble;
  EvScalar (Some (lit "c")) None (lit "  two" ++ [10; 10] ++ lit "lines") false true SLiteral;
  EvScalar None None (lit "folded") false true SDouble;
  EvScalar None None (lit "many words that are put on lines" ++ [10] ++ lit "and more" ++ [10; 10]) false true SFolded;
  EvMappingEnd;
  EvDocumentEnd false;
  EvDocumentStart (Some (Mk_vd 1 2)) [Mk_td (lit "!e!") (lit "tag:e,2000:")] false;
  EvScalar None (Some (lit "tag:e,2000:t")) (lit "---") false false SSingle;
  EvDocumentEnd false;
  EvDocumentStart None [] false;
  EvScalar None None (lit "a" ++ [10; 10]) false true SLiteral;
  EvDocumentEnd false;
  EvStreamEnd ] ++ [None; None].
Proof. vm_compute. reflexivity. Qed.
