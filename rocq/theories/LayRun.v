(** LayRun.v -- output of a list of events in block or flow layout. *)
From Coq Require Import Lia ZifyBool ZifyNat ZifyN Bool.
From Verif Require Import Base Utf Chars State Reader Scanner Wp ScanFacts RoundScan RoundPlain EState Emitter Document Api EmitText EmitScalar EmitQuoted EmitRuns Spec_Emitter EmitSession Spec_Events EventFacts Spec_EmitNames EmitGrammar CanonLex CanonBody LayItems LayScan Spec_Layout LayToks LayKeys LayEmit LayWrite LayNode LayStep LayDoc.
From Verif Require CanonEmit CanonStep CanonRun.
Open Scope N_scope.

(** What the round trip needs of an event, in a state of the grammar. *)
Definition event_ok (g : gstate) (d : event_data) : Prop :=
  valid_event false d /\ CanonStep.value_ok d /\ style_in d /\ all ascii (written_tag false d) /\
  match d with EvDocumentStart _ tds _ => Forall (fun t => ascii (td_prefix t)) tds | _ => True end /\
  match g with GDoc ds _ => all (CanonStep.tag_fine (all_tds ds)) (written_tag false d) | _ => True end.
(** At the start of the stream; after the start of a first document that is not written. *)
Definition fl (p : bool * bool) (d : event_data) : bool * bool := (false, match d with EvDocumentStart None [] true => fst p | _ => false end).
Fixpoint events_ok (g : gstate) (p : bool * bool) (l : list event_data) : Prop :=
  match l with
  | [] => True
  | d :: r => event_ok g d /\ (snd p = true -> ~ blank_scalar d) /\ match g with GDoc ds fs => 10 * N.of_nat (length fs) <= 2147483647 | _ => True end /\
      match gstep g d with Some g' => events_ok g' (fl p d) r | None => False end
  end.
Lemma events_ok_app l : forall g p r, events_ok g p (l ++ r) -> events_ok g p l /\ forall g', grun g l = Some g' -> events_ok g' (fold_left fl l p) r.
Proof.
  induction l as [|d l IH]; intros g p r H; cbn [app events_ok grun fold_left] in *; [split; [exact Logic.I|intros g' [= <-]; exact H]|].
  destruct H as (H1 & H2 & H3 & H4). destruct (gstep g d) as [g1|]; [|contradiction H4]. destruct (IH g1 _ r H4) as [H5 H6]. auto 10.
Qed.
Definition gst (l : lgs) : gstate := match l with LDocs _ => GDocs | LDoc ds fs => GDoc ds (map fr fs) | LEndS => GEnd end.
Lemma lcstep_gstep st d tk st' : lcstep st d tk st' -> gstep (gst (lg st)) d = Some (gst (lg st')).
Proof.
  intros H. destruct H as [first f oe vd tds imp|f imp|f oe ds imp|first f oe b0|ds f r first oe d tk a Hf Hn Ha Hs|ds k r first oe tk Ht|ds b r first oe tk Ht]; cbn [lg gst map fr]; try reflexivity.
  destruct Hn; destruct f; try (destruct (Hf eq_refl)); cbn [push_act next_frame map fr gstep after option_map]; destruct (map fr r); reflexivity.
Qed.
Lemma lcrun_grun st l tk st' : lcrun st l tk st' -> grun (gst (lg st)) l = Some (gst (lg st')).
Proof. induction 1 as [|st d t st1 l t' st2 H1 H2 IH]; cbn [grun]; [reflexivity|]. rewrite (lcstep_gstep _ _ _ _ H1). exact IH. Qed.
Lemma first_top ds fs first d tk fs' first' : lcstep (LT (LDoc ds fs) first false) d tk (LT (LDoc ds fs') first' false) -> first' = true -> match fs' with (LSeq _ | LKey _) :: _ => True | _ => False end.
Proof. intros H Hf. inversion H; subst; try discriminate. destruct a; try discriminate; exact Logic.I. Qed.
Lemma flows_len fs : flows fs <= N.of_nat (length fs).
Proof. induction fs as [|f r IH]; cbn [flows length]; [lia|]. destruct (blk f); lia. Qed.
Lemma ready_more e r : ready (e :: r) = true -> opens (e_data e) = true -> r <> [].
Proof. intros H Ho ->. unfold ready, level_returns in H. destruct (e_data e); try discriminate Ho; discriminate H. Qed.
Lemma D_more fs first sb q x c ls : D fs first sb q c ls -> D fs first sb (q ++ x) c ls.
Proof.
  destruct fs as [|f r]; [auto|]. intros (H1 & H2 & H3 & li & H4 & H5). split; [exact H1|]. split; [exact H2|]. split; [exact H3|]. exists li. split; [exact H4|].
  destruct first; [|exact H5]. destruct H5 as [P1 P2 P3 P4 P5 (P6 & P7 & P8) P9]. constructor; try assumption. destruct q as [|e0 q0]; [destruct (P6 eq_refl)|].
  split; [discriminate|]. cbn [app]. split; [exact P7|exact P8].
Qed.
Lemma D_tds fs first sb q t c ls : D fs first sb q c ls -> D fs first sb q (set_em_tag_directives t c) ls.
Proof.
  destruct fs as [|f r]; [auto|]. intros (H1 & H2 & H3 & li & H4 & H5). split; [exact H1|]. split; [exact H2|]. split; [exact H3|]. exists li. split; [exact H4|].
  destruct first; [|exact H5]. destruct H5. constructor; assumption.
Qed.
Lemma D_events fs first sb q t c ls : D fs first sb q c ls -> D fs first sb q (set_em_events t c) ls.
Proof.
  destruct fs as [|f r]; [auto|]. intros (H1 & H2 & H3 & li & H4 & H5). split; [exact H1|]. split; [exact H2|]. split; [exact H3|]. exists li. split; [exact H4|].
  destruct first; [|exact H5]. destruct H5. constructor; assumption.
Qed.
(** The place in the stream and the flags of [events_ok]. *)
Definition flags (st : lst) (p : bool * bool) : Prop :=
  match lg st with LDocs b => b = true -> fst p = true | LDoc _ (LRoot true :: _) => snd p = true | _ => True end.
Lemma root_inside ds fs first d tk fs' first' p : stack_ok (map fr fs) -> lcstep (LT (LDoc ds fs) first false) d tk (LT (LDoc ds fs') first' false) -> flags (LT (LDoc ds fs') first' false) p.
Proof.
  intros Hk H. unfold flags. cbn [lg]. destruct fs' as [|[[]| | | |] r']; try exact Logic.I. exfalso.
  inversion H; subst.
  - destruct a; match goal with H : push_act _ (next_frame ?f :: _) = _ |- _ => cbn [push_act] in H; try discriminate H; destruct f; discriminate H end.
  - cbn [map fr stack_ok] in Hk. destruct Hk as [Hk Hn]. destruct r'; [apply Hn; reflexivity|contradiction Hk].
  - cbn [map fr stack_ok] in Hk. destruct Hk as [Hk Hn]. destruct r'; [apply Hn; reflexivity|contradiction Hk].
Qed.

Section lay.
Variable lf : str.
Hypothesis Hlf : lf_ok lf.
Variable u : bool.
Definition CB (st : lst) (q : list event) (c : est) (ls : lstate) : Prop :=
  good lf u c /\ g_ok (gst (lg st)) /\
  match lg st with
  | LDocs f => em_state c = (if f then EFirstDocumentStart else EDocumentStart) /\ em_states c = [] /\ em_indents c = [] /\ em_indent c = (-1)%Z /\ em_flow_level c = 0%Z /\
      em_column c = 0%Z /\ em_whitespace c = true /\ em_indention c = true /\ Out ls /\ (lopen st = false -> ln ls = Free) /\ (f = true -> ls = ls0 /\ lopen st = false) /\ (em_open_ended c =? 0)%Z = negb (lopen st)
  | LDoc ds fs => Forall valid_directive ds /\ (exists sb, D fs (lfirst st) sb q c ls) /\ lopen st = false /\
      (lfirst st = true -> match fs with (LSeq _ | LKey _) :: _ => True | _ => False end)
  | LEndS => final ls
  end.
Definition CI (st : lst) (q : list event) (c : est) (ls : lstate) : Prop :=
  CB st q c ls /\ match lg st with LDoc ds _ => em_tag_directives c = all_tds ds | _ => True end.
Lemma Out_final ls : Out ls -> final ls.
Proof. intros [H1 H2 H3 H4 [H5 H6] H7]. split; [exact H1|]. split; [exact H3|]. split; [exact H5|]. split; [exact H6|]. unfold opens_gate in H7. destruct (ln ls); auto. Qed.
Definition held (st st' : lst) (c' : est) : Prop :=
  match lg st' with LDoc ds' _ => em_tag_directives c' = all_tds ds' \/ em_tag_directives c' = [] /\ match lg st with LDoc ds _ => ds = ds' | _ => False end | _ => True end.
Definition stepped (st : lst) (d : event_data) (p : bool * bool) (evs : list event) (tk : list token_data) (c' : est) (ls' : lstate) : Prop :=
  exists st', lcstep st d tk st' /\ CB st' (em_events c') c' ls' /\ em_events c' = evs /\ flags st' (fl p d) /\ held st st' c'.
Lemma node_or ds f r d : gstep (GDoc ds (f :: r)) d <> None -> f <> FDone -> match f with FSeq => d = EvSequenceEnd \/ EmitGrammar.is_node d = true | FKey => d = EvMappingEnd \/ EmitGrammar.is_node d = true | _ => EmitGrammar.is_node d = true end.
Proof. intros H Hf. destruct f, d; cbn [gstep EmitGrammar.is_node] in *; auto; try (destruct (Hf eq_refl)); destruct H; reflexivity. Qed.
Lemma W_machine st p e an c ls : CB st (e :: em_events c) c ls -> flags st p -> em_tag_directives c = [] -> event_ok (gst (lg st)) (e_data e) -> (snd p = true -> ~ blank_scalar (e_data e)) -> gstep (gst (lg st)) (e_data e) <> None ->
  (opens (e_data e) = true -> em_events c <> []) ->
  match lg st with LDoc ds fs => an_ok u (all_tds ds) (e_data e) an /\ 10 * N.of_nat (length fs) <= 2147483647 | _ => True end ->
  W lf (em_state_machine e an) c ls (stepped st (e_data e) p (em_events c)).
Proof.
  destruct st as [g first oe]. cbn [lg lfirst lopen]. intros (G & Hg & HC) Hfl Ht (Hval & Hv & Hsty & Hat & Hap & Htf) Hbl Hgs Hop Hx. cbn [lg lfirst lopen] in Hg, HC. unfold em_state_machine.
  apply W_get; [reflexivity|]. destruct g as [fi|ds fs|]; cbn [gst] in *.
  - destruct HC as (Hst & H1 & H2 & H3 & Hfv & H4 & H5 & H6 & H7 & H8 & H9 & H10). rewrite (mv_id c), H4, H5, H6.
    assert (E : W lf (emit_document_start e fi) (mv 0 (em_line c) true true c) ls (stepped (LT (LDocs fi) first oe) (e_data e) p (em_events c))).
    { destruct (e_data e) as [en| |vd tdl im|im|a0|a0 t v pi qi sty|a0 t im sty| |a0 t im sty|] eqn:Ed; try (destruct Hgs; reflexivity).
      - rewrite <- Ed. eapply (W_stream_end lf Hlf u e fi oe (em_line c) c ls); [exact Ed|exact G|exact H3|exact H7|exact H10|].
        intros c' ls' G' E' O' tk Hs. rewrite Ed in *. exists (LT LEndS false false). split; [apply Hs|]. split; [|split; [exact E'|split; exact Logic.I]]. split; [exact G'|]. split; [exact Logic.I|]. exact (Out_final _ O').
      - rewrite <- Ed. eapply (W_doc_start lf Hlf u vd tdl im e fi oe (em_line c) c ls); [exact Ed|rewrite Ed; apply Hval|exact Hap|exact G|exact Ht|exact H1|exact H2|exact H3|exact Hfv|exact H7|exact H8|exact H9|exact H10|].
        intros x' y' w' i' c' ls' b G' E' T' D' B' tk Hs. rewrite Ed in *. exists (LT (LDoc tdl [LRoot b]) false false). split; [apply Hs|].
        split; [|split; [exact E'|split; [|left; exact T']]].
        + split; [exact G'|]. split; [exact Logic.I|]. cbn [lg lfirst lopen].
          split; [apply Hval|]. split; [exists false; apply D'|]. split; [reflexivity|discriminate].
        + unfold flags. cbn [lg]. destruct b; [|exact Logic.I]. destruct (B' eq_refl) as (-> & -> & -> & ->). cbn [fl snd]. exact (Hfl eq_refl). }
    change (em_state (mv 0 (em_line c) true true c)) with (em_state c). rewrite Hst. destruct fi; exact E.
  - destruct Hx as [Han Hb]. destruct HC as (Hvd & (sb & HD) & -> & Hf). cbn [g_ok] in Hg.
    assert (Hfine : fine (all_tds ds) (e_data e)) by (split; [exact Hval|split; [exact Hv|split; [exact Htf|exact Hsty]]]).
    pose proof (CanonStep.all_handles ds Hvd) as Hh. rewrite (mv_id c) in HD |- *. set (x := em_column c) in *. set (y := em_line c) in *. set (w := em_whitespace c) in *. set (i := em_indention c) in *.
    change (em_state (mv x y w i c)) with (em_state c).
    assert (U : upto ds e fs first c (stepped (LT (LDoc ds fs) first false) (e_data e) p (em_events c))).
    { intros tk c' ls' fs' first' sb' Hs S D'. exists (LT (LDoc ds fs') first' false). split; [exact Hs|]. pose proof S as [S1 S2 S3 S4 S5 S6]. split.
      - split; [exact (good_stay lf u c c' G S)|]. split; [exact (gstep_ok (GDoc ds (map fr fs)) _ _ Hg (lcstep_gstep _ _ _ _ Hs))|]. cbn [lg lfirst lopen].
        split; [exact Hvd|]. split; [exists sb'; exact D'|]. split; [reflexivity|]. exact (first_top _ _ _ _ _ _ _ Hs).
      - split; [exact S5|]. split; [exact (root_inside _ _ _ _ _ _ _ _ Hg Hs)|]. right. split; [congruence|reflexivity]. }
    assert (Est : em_state c = match fs with f :: _ => st_of f first (negb first && sb) | [] => EEnd end) by (destruct fs; [contradiction HD|apply HD]). rewrite Est.
    destruct fs as [|f r]; [contradiction HD|]. cbn [map] in Hg, Hgs. pose proof (node_or ds (fr f) (map fr r) (e_data e) Hgs) as Hno.
    assert (Hfr : flows r < 2147483647) by (pose proof (flows_len r); cbn [length] in Hb; lia).
    assert (First : match f with LSeq _ | LKey _ => True | _ => first = false end) by (destruct f; try exact Logic.I; (destruct first; [destruct (Hf eq_refl)|reflexivity])).
    destruct f as [b| |k|b|b]; cbn [st_of fr] in *.
    + assert (r = []) as -> by (destruct r; [reflexivity|contradiction Hg]). subst first.
      eapply (W_root lf Hlf ds Hh e an u (em_events c) Han Hfine Hop b sb); [exact G|reflexivity|exact HD|apply Hno; discriminate| |exact U].
      intros ->. apply Hbl. exact Hfl.
    + subst first. cbn [stack_ok] in Hg. assert (r = []) as -> by (destruct r; [reflexivity|discriminate Hg]).
      destruct (e_data e) as [en| |vd tdl im|im|a0|a0 t v pi qi sty|a0 t im sty| |a0 t im sty|] eqn:Ed; try (destruct Hgs; reflexivity).
      eapply (W_doc_end lf Hlf u im e ds sb); [exact Ed|exact G|exact HD|].
      intros y' c' ls' G' E' Z1 Z2 Z3 Z4 Z5 Z6 Z7 Z8 tk Hs. rewrite Ed in Hs. exists (LT (LDocs false) false im). split; [exact Hs|]. split; [|split; [exact E'|split; [discriminate|exact Logic.I]]].
      split; [exact G'|]. split; [exact Logic.I|]. cbn [lg lopen]. split; [exact Z1|]. split; [exact Z2|]. split; [exact Z3|]. split; [exact Z4|]. split; [exact Z5|].
      split; [reflexivity|]. split; [reflexivity|]. split; [reflexivity|]. split; [exact Z6|]. split; [exact Z7|]. split; [discriminate|exact Z8].
    + assert (Hn : e_data e = EvSequenceEnd \/ EmitGrammar.is_node (e_data e) = true) by (apply Hno; discriminate). destruct k.
      * destruct first; (eapply (W_fseq lf Hlf ds Hh e an u (em_events c) Han Hfine Hop r _ sb); [exact G|reflexivity|exact HD|exact Hfr|exact Hn|exact U]).
      * destruct first; (eapply (W_bseq lf Hlf ds Hh e an u (em_events c) Han Hfine Hop SkBlock r _ sb); [discriminate|exact G|reflexivity|exact HD|exact Hb|exact Hn|exact U]).
      * destruct first; (eapply (W_bseq lf Hlf ds Hh e an u (em_events c) Han Hfine Hop SkInd r _ sb); [discriminate|exact G|reflexivity|exact HD|exact Hb|exact Hn|exact U]).
    + assert (Hn : e_data e = EvMappingEnd \/ EmitGrammar.is_node (e_data e) = true) by (apply Hno; discriminate). destruct b.
      * destruct first; (eapply (W_bkey lf Hlf ds Hh e an u (em_events c) Han Hfine Hop r _ sb); [exact G|reflexivity|exact HD|exact Hb|exact Hn|exact U]).
      * destruct first; (eapply (W_fkey lf Hlf ds Hh e an u (em_events c) Han Hfine Hop r _ sb); [exact G|reflexivity|exact HD|exact Hfr|exact Hn|exact U]).
    + assert (Hn : EmitGrammar.is_node (e_data e) = true) by (apply Hno; discriminate). subst first. cbn [negb andb]. destruct b.
      * destruct sb; (eapply (W_bval lf Hlf ds Hh e an u (em_events c) Han Hfine Hop r); [exact G|reflexivity|exact HD|exact Hn|exact U]).
      * destruct sb; (eapply (W_fval lf Hlf ds Hh e an u (em_events c) Han Hfine Hop r); [exact G|reflexivity|exact HD|exact Hn|exact U]).
  - destruct Hgs. destruct (e_data e); reflexivity.
Qed.

Lemma CB_tds st q c ls tds : CB st q c ls -> CB st q (set_em_tag_directives tds c) ls.
Proof.
  intros (G & H & HC). split; [exact G|]. split; [exact H|]. destruct (lg st); try exact HC.
  destruct HC as (V & (sb & HD) & L & F). split; [exact V|]. split; [exists sb; exact (D_tds _ _ _ _ _ _ _ HD)|]. auto.
Qed.
Lemma CB_events st q c ls q' : CB st q c ls -> CB st q (set_em_events q' c) ls.
Proof.
  intros (G & H & HC). split; [exact G|]. split; [exact H|]. destruct (lg st); try exact HC.
  destruct HC as (V & (sb & HD) & L & F). split; [exact V|]. split; [exists sb; exact (D_events _ _ _ _ _ _ _ HD)|]. auto.
Qed.
Lemma CB_more st q x c ls : CB st q c ls -> CB st (q ++ x) c ls.
Proof.
  intros (G & H & HC). split; [exact G|]. split; [exact H|]. destruct (lg st); try exact HC.
  destruct HC as (V & (sb & HD) & L & F). split; [exact V|]. split; [exists sb; exact (D_more _ _ _ _ _ _ _ HD)|]. auto.
Qed.
Lemma W_one st p e c ls : CI st (e :: em_events c) c ls -> flags st p -> event_ok (gst (lg st)) (e_data e) -> (snd p = true -> ~ blank_scalar (e_data e)) -> gstep (gst (lg st)) (e_data e) <> None ->
  (opens (e_data e) = true -> em_events c <> []) -> match lg st with LDoc ds fs => 10 * N.of_nat (length fs) <= 2147483647 | _ => True end ->
  W lf (emit_one e) c ls (fun tk c' ls' => exists st', lcstep st (e_data e) tk st' /\ CI st' (em_events c') c' ls' /\ em_events c' = em_events c /\ flags st' (fl p (e_data e))).
Proof.
  intros [HB HT] Hfl He Hbl Hg Hop Hb. unfold emit_one. apply W_get; [reflexivity|]. cbv zeta.
  apply W_seq, W_modify; [inner|keeps_core|]. set (c0 := set_em_tag_directives [] c). set (tds := em_tag_directives c) in *.
  assert (Hcan : em_canonical c0 = false) by (destruct HB as ((H & _) & _); exact H). assert (Hu : em_unicode c0 = u) by (destruct HB as ((_ & _ & _ & H) & _); exact H).
  destruct (event_val e tds c0 Hcan) as (an & Ean & Han).
  { apply He. } { apply He. }
  rewrite Hu in Han.
  apply (W_val lf _ an); [exact Ean|]. apply W_seq. eapply W_conseq; [apply (W_machine st p e an c0 ls); [apply CB_tds, HB|exact Hfl|reflexivity|exact He|exact Hbl|exact Hg|exact Hop|]|].
  { destruct (lg st); try exact Logic.I. rewrite <- HT. split; [exact Han|exact Hb]. }
  cbv beta. intros tk c' ls' (st' & Hs & HB' & Ee & Hfl' & Htd). apply W_modify; [apply CanonRun.restore_inner|apply CanonRun.restore_core|]. cbn [app]. rewrite app_nil_r.
  exists st'. split; [exact Hs|]. change (em_events c0) with (em_events c) in Ee. unfold held in Htd.
  set (c2 := if is_empty (em_tag_directives c') then set_em_tag_directives tds c' else c').
  assert (E2 : em_events c2 = em_events c') by (unfold c2; destruct (is_empty _); reflexivity).
  assert (B2 : CB st' (em_events c2) c2 ls') by (rewrite E2; unfold c2; destruct (is_empty _); [apply CB_tds, HB'|exact HB']).
  split; [split; [exact B2|]|split; [congruence|exact Hfl']].
  destruct (lg st') as [|ds' fs'|]; try exact Logic.I. unfold c2.
  destruct Htd as [Htd|[Htd Hds]]; rewrite Htd.
  - rewrite CanonRun.all_tds_ne. exact Htd.
  - cbn [is_empty]. destruct (lg st); try contradiction Hds. rewrite <- Hds. exact HT.
Qed.
Definition loop_post (st : lst) (p : bool * bool) (q : list event) (tk : list token_data) (c' : est) (ls' : lstate) : Prop :=
  exists l st', q = l ++ em_events c' /\ ready (em_events c') = false /\ lcrun st (data l) tk st' /\ CI st' (em_events c') c' ls' /\ flags st' (fold_left fl (data l) p).
Lemma W_loop n : forall st p c ls, (length (em_events c) < n)%nat -> CI st (em_events c) c ls -> flags st p -> events_ok (gst (lg st)) p (data (em_events c)) ->
  W lf (emit_loop n) c ls (loop_post st p (em_events c)).
Proof.
  induction n as [|n IH]; intros st p c ls Hn HC Hfl Hok; [lia|].
  apply (W_ext lf (s <- get ;; match em_events s with
    | e :: r => if ready (e :: r) then modify (set_em_events r) ;; (emit_one e ;; emit_loop n) else ret tt
    | [] => ret tt end)).
  { intros s. rewrite emit_loop_step, b_get. destruct (em_events s) as [|e r]; [reflexivity|]. destruct (ready (e :: r)); reflexivity. }
  apply W_get; [reflexivity|]. destruct (em_events c) as [|e r] eqn:Ee.
  { apply W_ret. exists [], st. rewrite Ee. split; [reflexivity|]. split; [reflexivity|]. split; [constructor|]. split; [exact HC|exact Hfl]. }
  destruct (ready (e :: r)) eqn:Er.
  2:{ apply W_ret. exists [], st. rewrite Ee. split; [reflexivity|]. split; [exact Er|]. split; [constructor|]. split; [exact HC|exact Hfl]. }
  apply W_seq, W_modify; [inner|keeps_core|]. cbn [app]. cbn [data map events_ok] in Hok. destruct Hok as (H1 & H2 & H3 & H4).
  apply W_seq. eapply W_conseq; [apply (W_one st p e (set_em_events r c) ls)|].
  - destruct HC as [HB HT]. split; [apply CB_events, HB|exact HT].
  - exact Hfl.
  - exact H1.
  - exact H2.
  - destruct (gstep (gst (lg st)) (e_data e)); [discriminate|contradiction H4].
  - exact (ready_more e r Er).
  - destruct (lg st); try exact Logic.I. cbn [gst] in H3. rewrite map_length in H3. exact H3.
  - cbv beta. intros tk c1 ls1 (st1 & Hs & HC1 & Ee1 & Hfl1). change (em_events (set_em_events r c)) with r in Ee1.
    rewrite (lcstep_gstep _ _ _ _ Hs) in H4.
    eapply W_conseq; [apply (IH st1 (fl p (e_data e)) c1 ls1); [rewrite Ee1; cbn in Hn; lia|exact HC1|exact Hfl1|rewrite Ee1; exact H4]|].
    rewrite Ee1. intros tk2 c2 ls2 (l & st2 & El & R2 & Hr & HC2 & Hfl2). exists (e :: l), st2. split; [rewrite El; reflexivity|]. split; [exact R2|].
    split; [cbn [data map]; econstructor; eassumption|]. split; [exact HC2|exact Hfl2].
Qed.
Lemma W_calls l : forall st p c ls, CI st (em_events c) c ls -> flags st p -> ready (em_events c) = false -> events_ok (gst (lg st)) p (data (em_events c ++ emitted l)) ->
  W lf (run_calls l) c ls (loop_post st p (em_events c ++ emitted l)).
Proof.
  induction l as [|[e|] l IH]; intros st p c ls HC Hfl Hr Hok; cbn [run_calls run_call emitted flat_map app] in *.
  - apply W_ret. exists [], st. rewrite app_nil_r. split; [reflexivity|]. split; [exact Hr|]. split; [constructor|]. split; [exact HC|exact Hfl].
  - change (flat_map _ l) with (emitted l) in *.
    apply W_seq. apply (W_ext lf (enqueue e ;; (s <- get ;; emit_loop (S (length (em_events s)))))); [intros s; symmetry; apply emit_eq|].
    unfold enqueue. apply W_seq, W_modify; [inner|keeps_core|]. apply W_get; [reflexivity|]. cbn [app].
    set (c1 := set_em_events (em_events c ++ [e]) c). assert (E1 : em_events c1 = em_events c ++ [e]) by reflexivity.
    replace (em_events c ++ e :: emitted l) with (em_events c1 ++ emitted l) in * by (rewrite E1, <- app_assoc; reflexivity).
    assert (HC1 : CI st (em_events c1) c1 ls) by (destruct HC as [HB HT]; split; [rewrite E1; apply CB_more, CB_events, HB|exact HT]).
    unfold data in Hok. rewrite map_app in Hok. destruct (events_ok_app _ _ _ _ Hok) as [Hok1 _].
    eapply W_conseq; [apply (W_loop _ st p c1 ls); [lia|exact HC1|exact Hfl|exact Hok1]|].
    intros tk c2 ls2 (l2 & st2 & El & R2 & Hrun & HC2 & Hfl2).
    assert (Hok2 : events_ok (gst (lg st2)) (fold_left fl (data l2) p) (data (em_events c2 ++ emitted l))).
    { rewrite El, map_app, <- app_assoc, <- map_app in Hok. destruct (events_ok_app _ _ _ _ Hok) as [_ H]. apply H. exact (lcrun_grun _ _ _ _ Hrun). }
    eapply W_conseq; [exact (IH st2 _ c2 ls2 HC2 Hfl2 R2 Hok2)|]. intros tk2 c3 ls3 (l3 & st3 & El3 & R3 & Hrun3 & HC3 & Hfl3).
    exists (l2 ++ l3), st3. rewrite El, <- !app_assoc, El3. split; [reflexivity|]. split; [exact R3|]. split; [|split; [exact HC3|]].
    + unfold data in *. rewrite map_app. eapply lcrun_app; eassumption.
    + unfold data in *. rewrite map_app, fold_left_app. exact Hfl3.
  - change (flat_map _ l) with (emitted l) in *. apply W_seq.
    apply (W_still lf _ _ c); [apply runs_flush|auto|]. cbn [app]. exact (IH st p c ls HC Hfl Hr Hok).
Qed.
End lay.

(** The start. *)
Lemma ls0_out : Out ls0.
Proof. constructor; try reflexivity; [exists SOff; reflexivity|split; reflexivity]. Qed.
Lemma started_CI ev st plan : st_canonical st = false ->
  CI (break_chars (st_break (effective ev st))) (em_unicode (core (started ev st plan))) (LT (LDocs true) false false) [] (core (started ev st plan)) ls0.
Proof.
  intros Hc. split; [|exact Logic.I]. split.
  - split; [exact Hc|]. split; [|split; reflexivity]. cbn. destruct ((2 <=? st_indent st) && (st_indent st <=? 9))%Z eqn:E; lia.
  - split; [exact Logic.I|]. cbn [lg lopen]. repeat (split; [first [reflexivity|exact ls0_out|intros _; first [reflexivity|split; reflexivity]]|]). reflexivity.
Qed.
(** The text of a complete stream. *)
Theorem layout_text ev st plan l : st_canonical st = false -> events_ok GDocs (true, false) (data (emitted l)) -> grun GDocs (data (emitted l)) = Some GEnd ->
  exists its c' st' ls' tk, let lf := break_chars (st_break (effective ev st)) in
    lf_ok lf /\ runs (run_calls l) (core (started ev st plan)) (texts lf its) (Ok tt) c' /\ Forall (item_ok lf) its /\
    lrun lf ls0 its = Some (ls', tk) /\ final ls' /\ lcrun (LT (LDocs true) false false) (data (emitted l)) tk st' /\ lg st' = LEndS.
Proof.
  intros Hc Hok Hg. set (lf := break_chars (st_break (effective ev st))). assert (Hlf : lf_ok lf) by exact (CanonRun.break_ok ev st).
  destruct (W_calls lf Hlf (em_unicode (core (started ev st plan))) l (LT (LDocs true) false false) (true, false) (core (started ev st plan)) ls0) as (its & c' & ls' & t & tk & R & Hc' & Hi & Hl & Hp & P).
  - exact (started_CI ev st plan Hc). - intros _. reflexivity. - reflexivity. - exact Hok. - reflexivity.
  - destruct P as (l2 & st' & El & R2 & Hrun & HC & _). change (em_events (core (started ev st plan))) with (@nil event) in El. cbn [app] in El.
    assert (Eq : em_events c' = []).
    { destruct (em_events c') as [|e r] eqn:Ee; [reflexivity|]. exfalso. pose proof (lcrun_grun _ _ _ _ Hrun) as G1. cbn [lg gst] in G1.
      unfold data in Hg, G1. rewrite El, map_app, grun_app in Hg. unfold data in *. rewrite G1 in Hg. 
      destruct (pending_inside (e :: r) (gst (lg st')) GEnd R2 ltac:(discriminate)) as (? & ? & [=]); [|exact Hg]. destruct HC as ((_ & H & _) & _). exact H. }
    rewrite Eq, app_nil_r in El. subst l2. pose proof (lcrun_grun _ _ _ _ Hrun) as G1. cbn [lg gst] in G1.
    assert (E : lg st' = LEndS) by (destruct (lg st'); cbn [gst] in G1; [congruence..|reflexivity]).
    assert (F : final ls') by (destruct HC as ((_ & _ & H) & _); rewrite E in H; exact H).
    assert (t = tk) as ->.
    { assert (P0 : pend ls' = []) by (unfold pend; destruct F as (_ & _ & _ & -> & _); reflexivity). rewrite P0, app_nil_r in Hp. symmetry. exact Hp. }
    exists its, c', st', ls', tk. cbv zeta. auto 10.
Qed.
