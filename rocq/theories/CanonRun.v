(** CanonRun.v -- canonical output of a list of events. *)
From Coq Require Import Lia ZifyBool ZifyNat ZifyN Bool.
From Verif Require Import Base Utf Chars State Reader Scanner Wp ScanFacts RoundScan EState Emitter Document Api EmitText EmitScalar EmitQuoted EmitRuns Spec_Emitter EmitSession Spec_Events EventFacts Spec_EmitNames EmitGrammar CanonLex CanonBody CanonItems CanonEmit CanonToks CanonStep.
Open Scope N_scope.

(** What the round trip needs of an event, in a state of the grammar. *)
Definition event_ok (g : gstate) (d : event_data) : Prop :=
  valid_event true d /\ value_ok d /\ ascii_tag d /\
  match d with EvDocumentStart _ tds _ => Forall (fun t => ascii (td_prefix t)) tds | _ => True end /\
  match g with GDoc ds _ => all (tag_fine (all_tds ds)) (tag_in d) | _ => True end.
Fixpoint events_ok (g : gstate) (l : list event_data) : Prop :=
  match l with
  | [] => True
  | d :: r => event_ok g d /\ match g with GDoc ds fs => N.of_nat (colls fs) <= 2147483647 | _ => True end /\
      match gstep g d with Some g' => events_ok g' r | None => False end
  end.
Lemma events_ok_app l : forall g r, events_ok g (l ++ r) -> events_ok g l /\ forall g', grun g l = Some g' -> events_ok g' r.
Proof.
  induction l as [|d l IH]; intros g r H; cbn [app events_ok grun] in *; [split; [exact I|intros g' [= <-]; exact H]|].
  destruct H as (H1 & H2 & H3). destruct (gstep g d) as [g1|]; [|contradiction H3]. destruct (IH g1 r H3) as [H4 H5]. auto.
Qed.
Section canon.
Variable lf : str.
Hypothesis Hlf : lf_ok lf.
Definition CB (st : cst) (c : est) (ls : lstate) : Prop :=
  good lf c /\ g_ok (cg st) /\
  match cg st with
  | GStart => False
  | GDocs => (em_state c = EFirstDocumentStart \/ em_state c = EDocumentStart) /\ em_states c = [] /\ em_indents c = [] /\ em_indent c = (-1)%Z /\
      em_column c = 0%Z /\ em_whitespace c = true /\ em_indention c = true /\ line0 ls /\ em_open_ended c = (if copen st then 1 else 0)%Z
  | GDoc ds fs => Forall valid_directive ds /\ D fs (cfirst st) c ls /\ em_open_ended c = 0%Z /\ copen st = false /\
      (cfirst st = true -> match fs with (FSeq | FKey) :: _ => True | _ => False end)
  | GEnd => lv ls = 0
  end.
Definition CI (st : cst) (c : est) (ls : lstate) : Prop :=
  CB st c ls /\ match cg st with GDoc ds _ => em_tag_directives c = all_tds ds | _ => True end.
Lemma W_weak m c ls (Q Q' : list token_data -> est -> lstate -> Prop) : W lf m c ls Q -> (forall t c' ls', Q t c' ls' -> Q' t c' ls') -> W lf m c ls Q'.
Proof. apply W_conseq. Qed.
Lemma restore_inner tds : inner (fun s => if is_empty (em_tag_directives s) then set_em_tag_directives tds s else s).
Proof.
  intros s. change (em_tag_directives (core s)) with (em_tag_directives s). destruct (is_empty (em_tag_directives s)); repeat split.
Qed.
Lemma restore_core tds c : is_core c -> is_core (if is_empty (em_tag_directives c) then set_em_tag_directives tds c else c).
Proof. destruct (is_empty _); [keeps_core|auto]. Qed.
Lemma all_tds_ne ds : is_empty (all_tds ds) = false.
Proof. destruct ds; reflexivity. Qed.
Lemma W_ext m m' c ls Q : (forall s, m s = m' s) -> W lf m c ls Q -> W lf m' c ls Q.
Proof. intros E H Hc. destruct (H Hc) as (its & c' & ls' & R & H'). exists its, c', ls'. split; [exact (runs_ext _ _ _ _ _ _ E R)|exact H']. Qed.
Lemma cstep_gstep st d tk st' : cstep st d tk st' -> gstep (cg st) d = Some (cg st').
Proof.
  intros H. destruct H as [f oe vd tds imp|f oe ds imp|f oe|ds fs fs' first oe d tk Ha Ht|ds r first oe|ds r first oe]; cbn [cg]; try reflexivity.
  destruct Ht; cbn [push]; destruct fs as [|[] [|? ?]]; cbn [gstep after option_map] in *; try discriminate Ha; injection Ha as <-; reflexivity.
Qed.
Lemma first_top ds fs first d tk fs' first' : cstep (CS (GDoc ds fs) first false) d tk (CS (GDoc ds fs') first' false) -> first' = true -> match fs' with (FSeq | FKey) :: _ => True | _ => False end.
Proof. intros H Hf. inversion H; subst; try discriminate. destruct d; try discriminate; exact Logic.I. Qed.

Lemma W_machine st e an c ls : CB st c ls -> em_tag_directives c = [] -> event_ok (cg st) (e_data e) -> gstep (cg st) (e_data e) <> None ->
  match cg st with GDoc ds fs => an_ok (all_tds ds) (e_data e) an /\ N.of_nat (colls fs) <= 2147483647 | _ => True end ->
  W lf (em_state_machine e an) c ls (fun tk c' ls' => exists st', cstep st (e_data e) tk st' /\ CB st' c' ls' /\ em_events c' = em_events c /\
    match cg st' with GDoc ds' _ => em_tag_directives c' = all_tds ds' \/ em_tag_directives c' = [] /\ match cg st with GDoc ds _ => ds = ds' | _ => False end | _ => True end).
Proof.
  destruct st as [g first oe]. cbn [cg cfirst copen]. intros (G & Hg & HC) Ht (Hval & Hv & Hat & Hap & Htf) Hgs Hx. cbn [cg cfirst copen] in Hg, HC. unfold em_state_machine.
  apply W_get; [reflexivity|]. destruct g as [| |ds fs|].
  - contradiction HC.
  - destruct HC as (Hst & H1 & H2 & H3 & H4 & H5 & H6 & H7 & H8). rewrite (mv_id c), H4, H5, H6.
    assert (E : W lf (emit_document_start e (match em_state c with EFirstDocumentStart => true | _ => false end)) (mv 0 (em_line c) true true c) ls
      (fun tk c' ls' => exists st', cstep (CS GDocs first oe) (e_data e) tk st' /\ CB st' c' ls' /\ em_events c' = em_events (mv 0 (em_line c) true true c) /\
        match cg st' with GDoc ds' _ => em_tag_directives c' = all_tds ds' \/ em_tag_directives c' = [] /\ False | _ => True end)).
    { generalize (match em_state c with EFirstDocumentStart => true | _ => false end). intros fi.
      destruct (e_data e) as [en| |vd tdl im|im|a0|a0 t v pi qi sty|a0 t im sty| |a0 t im sty|] eqn:Ed; try (destruct Hgs; reflexivity).
      - unfold emit_document_start. rewrite Ed. apply W_get; [reflexivity|]. change (em_open_ended (mv 0 (em_line c) true true c)) with (em_open_ended c). rewrite H8.
        replace ((if oe then 1 else 0) =? 2)%Z with false by (destruct oe; reflexivity). cbn [when]. apply W_seq, W_ret.
        apply W_seq. apply (W_runs lf _ _ _ [] (mv 0 (em_line c) true true c) ls); [apply runs_flush|auto|constructor|reflexivity|]. apply W_goto. cbn [toks flat_map app].
        exists (CS GEnd false false). split; [constructor|]. split; [|split; [reflexivity|exact Logic.I]]. split; [exact G|]. split; [exact Logic.I|]. apply H7.
      - rewrite <- Ed. eapply (W_doc_start lf vd tdl im e fi (em_line c) c ls oe); [exact Ed|rewrite Ed; apply Hval|exact Hap|exact G|exact Ht|exact H1|exact H2|exact H3|exact H7|exact H8|].
        intros y' c' ls' f G' E' T' O' D' tk Hs. rewrite Ed in *. exists (CS (GDoc tdl [FRoot]) false false). split.
        { inversion Hs; subst. constructor. }
        split; [|split; [exact E'|left; exact T']]. split; [exact G'|]. split; [exact Logic.I|]. cbn [cg cfirst copen].
        split; [apply Hval|]. split; [exact D'|]. split; [exact O'|]. split; [reflexivity|discriminate]. }
    change (em_state (mv 0 (em_line c) true true c)) with (em_state c). destruct Hst as [Hs|Hs]; rewrite Hs in *; exact E.
  - destruct Hx as [Han Hb]. destruct HC as (Hvd & HD & Ho & -> & Hf). cbn [g_ok] in Hg.
    assert (Hfine : fine (all_tds ds) (e_data e)) by (split; [exact Hval|split; [exact Hv|exact Htf]]).
    pose proof (all_handles ds Hvd) as Hh. rewrite (mv_id c) in HD |- *. set (x := em_column c) in *. set (y := em_line c) in *. set (w := em_whitespace c) in *. set (i := em_indention c) in *.
    change (em_state (mv x y w i c)) with (em_state c).
    assert (U : upto ds e fs first c (fun tk c' ls' => exists st', cstep (CS (GDoc ds fs) first false) (e_data e) tk st' /\ CB st' c' ls' /\ em_events c' = em_events (mv x y w i c) /\
        match cg st' with GDoc ds' _ => em_tag_directives c' = all_tds ds' \/ em_tag_directives c' = [] /\ ds = ds' | _ => True end)).
    { intros tk c' ls' fs' first' Hs S D'. exists (CS (GDoc ds fs') first' false). split; [exact Hs|]. destruct S as [S1 S2 S3 S4 S5 S6]. split.
      - destruct G as (G1 & G2 & G3). split; [repeat split; congruence|]. split; [exact (gstep_ok (GDoc ds fs) _ _ Hg (cstep_gstep _ _ _ _ Hs))|]. cbn [cg cfirst copen].
        split; [exact Hvd|]. split; [exact D'|]. split; [congruence|]. split; [reflexivity|]. exact (first_top _ _ _ _ _ _ _ Hs).
      - split; [exact S4|]. right. split; [congruence|reflexivity]. }
    assert (Est : em_state c = match fs with f :: _ => st_of f first | [] => EEnd end) by (destruct fs; [contradiction HD|apply HD]). rewrite Est.
    destruct fs as [|f r]; [contradiction HD|]. destruct f; cbn [st_of].
    + assert (r = []) as -> by (destruct r; [reflexivity|contradiction Hg]). assert (first = false) as -> by (destruct first; [destruct (Hf eq_refl)|reflexivity]).
      eapply (W_root lf ds Hh e an Han Hfine); [exact G|exact HD|exact Hgs|exact U].
    + assert (first = false) as -> by (destruct first; [destruct (Hf eq_refl)|reflexivity]). cbn [stack_ok] in Hg. 
      destruct (e_data e) as [en| |vd tdl im|im|a0|a0 t v pi qi sty|a0 t im sty| |a0 t im sty|] eqn:Ed; try (destruct Hgs; rewrite Hg; reflexivity).
      rewrite Hg in *. eapply (W_doc_end lf im e ds); [exact Ed|exact G|exact HD|exact Ho|].
      intros y' c' ls' G' E' Z1 Z2 Z3 Z4 Z5 Z6 tk Hs. rewrite Ed in Hs. exists (CS GDocs false im). split; [exact Hs|]. split; [|split; [exact E'|exact Logic.I]].
      split; [exact G'|]. split; [exact Logic.I|]. cbn [cg copen]. split; [right; exact Z1|]. split; [exact Z2|]. split; [exact Z3|]. split; [exact Z4|].
      split; [reflexivity|]. split; [reflexivity|]. split; [reflexivity|]. split; [exact Z5|exact Z6].
    + destruct first; (eapply (W_seq_item lf ds Hh e an Han Hfine); [exact G|exact Hg|exact HD|exact Hb|exact Hgs|exact U]).
    + destruct first; (eapply (W_map_key lf ds Hh e an Han Hfine); [exact G|exact Hg|exact HD|exact Hb|exact Hgs|exact U]).
    + assert (first = false) as -> by (destruct first; [destruct (Hf eq_refl)|reflexivity]).
      eapply (W_map_value lf ds Hh e an Han Hfine); [exact G|exact HD|exact Hgs|exact U].
  - destruct Hgs. destruct (e_data e); reflexivity.
Qed.
Lemma CB_tds st c ls tds : CB st c ls -> CB st (set_em_tag_directives tds c) ls.
Proof. intros (G & H). split; [exact G|]. exact H. Qed.
Lemma W_one st e c ls : CI st c ls -> event_ok (cg st) (e_data e) -> gstep (cg st) (e_data e) <> None ->
  match cg st with GDoc ds fs => N.of_nat (colls fs) <= 2147483647 | _ => True end ->
  W lf (emit_one e) c ls (fun tk c' ls' => exists st', cstep st (e_data e) tk st' /\ CI st' c' ls' /\ em_events c' = em_events c).
Proof.
  intros [HB HT] He Hg Hb. unfold emit_one. apply W_get; [reflexivity|]. cbv zeta.
  apply W_seq, W_modify; [inner|keeps_core|]. set (c0 := set_em_tag_directives [] c). set (tds := em_tag_directives c) in *.
  assert (Hcan : em_canonical c0 = true) by (destruct HB as ((H & _) & _); exact H).
  destruct (event_val e tds c0 Hcan) as (an & Ean & Han).
  { apply He. } { destruct He as (_ & _ & H & _). destruct (e_data e) as [| | | | |? [t|] ? ? ? ?|? [t|] ? ?| |? [t|] ? ?|]; try exact Logic.I; exact H. }
  apply (W_val lf _ an); [exact Ean|]. apply W_seq. eapply W_weak; [apply (W_machine st e an c0 ls); [apply CB_tds, HB|reflexivity|exact He|exact Hg|]|].
  { destruct (cg st); try exact Logic.I. rewrite <- HT. split; [exact Han|exact Hb]. }
  cbv beta. intros tk c' ls' (st' & Hs & HB' & Ee & Htd). apply W_modify; [apply restore_inner|apply restore_core|]. cbn [app]. rewrite app_nil_r.
  exists st'. split; [exact Hs|].
  destruct (cg st') as [| |ds' fs'|] eqn:Eg.
  1,2,4: destruct (is_empty (em_tag_directives c')); (split; [split; [first [apply CB_tds, HB'|exact HB']|rewrite Eg; exact Logic.I]|exact Ee]).
  destruct Htd as [Htd|[Htd Hds]]; rewrite Htd.
  - rewrite all_tds_ne. split; [split; [exact HB'|rewrite Eg; exact Htd]|exact Ee].
  - cbn [is_empty]. split; [|exact Ee]. split; [apply CB_tds, HB'|]. rewrite Eg. destruct (cg st); try contradiction Hds. rewrite <- Hds. exact HT.
Qed.
Lemma crun_grun st l tk st' : crun st l tk st' -> grun (cg st) l = Some (cg st').
Proof. induction 1 as [|st d t st1 l t' st2 H1 H2 IH]; cbn [grun]; [reflexivity|]. rewrite (cstep_gstep _ _ _ _ H1). exact IH. Qed.
Lemma CB_events st c ls q : CB st c ls -> CB st (set_em_events q c) ls.
Proof. intros (G & H). split; [exact G|]. exact H. Qed.
Definition loop_post (st : cst) (q : list event) (tk : list token_data) (c' : est) (ls' : lstate) : Prop :=
  exists l st', q = l ++ em_events c' /\ ready (em_events c') = false /\ crun st (data l) tk st' /\ CI st' c' ls'.
Lemma W_loop n : forall st c ls, (length (em_events c) < n)%nat -> CI st c ls -> events_ok (cg st) (data (em_events c)) ->
  W lf (emit_loop n) c ls (loop_post st (em_events c)).
Proof.
  induction n as [|n IH]; intros st c ls Hn HC Hok; [lia|].
  apply (W_ext (s <- get ;; match em_events s with
    | e :: r => if ready (e :: r) then modify (set_em_events r) ;; (emit_one e ;; emit_loop n) else ret tt
    | [] => ret tt end)).
  { intros s. rewrite emit_loop_step, b_get. destruct (em_events s) as [|e r]; [reflexivity|]. destruct (ready (e :: r)); reflexivity. }
  apply W_get; [reflexivity|]. destruct (em_events c) as [|e r] eqn:Ee.
  { apply W_ret. exists [], st. rewrite Ee. split; [reflexivity|]. split; [reflexivity|]. split; [constructor|exact HC]. }
  destruct (ready (e :: r)) eqn:Er.
  2:{ apply W_ret. exists [], st. rewrite Ee. split; [reflexivity|]. split; [exact Er|]. split; [constructor|exact HC]. }
  apply W_seq, W_modify; [inner|keeps_core|]. cbn [app]. cbn [data map events_ok] in Hok. destruct Hok as (H1 & H2 & H3).
  apply W_seq. eapply W_weak; [apply (W_one st e (set_em_events r c) ls)|].
  - destruct HC as [HB HT]. split; [apply CB_events, HB|exact HT].
  - exact H1.
  - destruct (gstep (cg st) (e_data e)); [discriminate|contradiction H3].
  - exact H2.
  - cbv beta. intros tk c1 ls1 (st1 & Hs & HC1 & Ee1). change (em_events (set_em_events r c)) with r in Ee1.
    rewrite (cstep_gstep _ _ _ _ Hs) in H3.
    eapply W_weak; [apply (IH st1 c1 ls1); [rewrite Ee1; cbn in Hn; lia|exact HC1|rewrite Ee1; exact H3]|].
    rewrite Ee1. intros tk2 c2 ls2 (l & st2 & El & R2 & Hr & HC2). exists (e :: l), st2. split; [rewrite El; reflexivity|]. split; [exact R2|].
    split; [cbn [data map]; econstructor; eassumption|exact HC2].
Qed.
Lemma W_calls l : forall st c ls, CI st c ls -> ready (em_events c) = false -> events_ok (cg st) (data (em_events c ++ emitted l)) ->
  W lf (run_calls l) c ls (loop_post st (em_events c ++ emitted l)).
Proof.
  induction l as [|[e|] l IH]; intros st c ls HC Hr Hok; cbn [run_calls run_call emitted flat_map app] in *.
  - apply W_ret. exists [], st. rewrite app_nil_r. split; [reflexivity|]. split; [exact Hr|]. split; [constructor|exact HC].
  - change (flat_map _ l) with (emitted l) in *.
    apply W_seq. apply (W_ext (enqueue e ;; (s <- get ;; emit_loop (S (length (em_events s)))))); [intros s; symmetry; apply emit_eq|].
    unfold enqueue. apply W_seq, W_modify; [inner|keeps_core|]. apply W_get; [reflexivity|]. cbn [app].
    set (c1 := set_em_events (em_events c ++ [e]) c). assert (E1 : em_events c1 = em_events c ++ [e]) by reflexivity.
    replace (em_events c ++ e :: emitted l) with (em_events c1 ++ emitted l) in * by (rewrite E1, <- app_assoc; reflexivity).
    assert (HC1 : CI st c1 ls) by (destruct HC as [HB HT]; split; [apply CB_events, HB|exact HT]).
    unfold data in Hok. rewrite map_app in Hok. destruct (events_ok_app _ _ _ Hok) as [Hok1 _].
    eapply W_weak; [apply (W_loop _ st c1 ls); [lia|exact HC1|exact Hok1]|].
    intros tk c2 ls2 (l2 & st2 & El & R2 & Hrun & HC2).
    assert (Hok2 : events_ok (cg st2) (data (em_events c2 ++ emitted l))).
    { rewrite El, map_app, <- app_assoc, <- map_app in Hok. destruct (events_ok_app _ _ _ Hok) as [_ H]. apply H. exact (crun_grun _ _ _ _ Hrun). }
    eapply W_weak; [exact (IH st2 c2 ls2 HC2 R2 Hok2)|]. intros tk2 c3 ls3 (l3 & st3 & El3 & R3 & Hrun3 & HC3).
    exists (l2 ++ l3), st3. rewrite El, <- !app_assoc, El3. split; [reflexivity|]. split; [exact R3|]. split; [|exact HC3].
    unfold data in *. rewrite map_app. eapply crun_app; eassumption.
  - change (flat_map _ l) with (emitted l) in *. apply W_seq.
    apply (W_runs lf _ _ _ [] c ls); [apply runs_flush|auto|constructor|reflexivity|]. cbn [toks flat_map app]. exact (IH st c ls HC Hr Hok).
Qed.
End canon.

(** The start. *)
Lemma started_CI ev st plan : st_canonical st = true -> CI (break_chars (st_break (effective ev st))) (CS GDocs false false) (core (started ev st plan)) (LS 0 true false Free).
Proof.
  intros Hc. split; [|exact Logic.I]. split.
  - split; [exact Hc|]. split; [|reflexivity]. cbn. destruct ((2 <=? st_indent st) && (st_indent st <=? 9))%Z eqn:E; lia.
  - split; [exact Logic.I|]. cbn [cg copen]. repeat split. left. reflexivity.
Qed.
Lemma break_ok ev st : lf_ok (break_chars (st_break (effective ev st))).
Proof. destruct st as [? ? ? ? ? []]; cbn; unfold lf_ok; auto. Qed.
(** The text of a complete canonical stream. *)
Theorem canonical_text ev st plan l : st_canonical st = true -> events_ok GDocs (data (emitted l)) -> grun GDocs (data (emitted l)) = Some GEnd ->
  exists its c' st' ls', let lf := break_chars (st_break (effective ev st)) in
    lf_ok lf /\ runs (run_calls l) (core (started ev st plan)) (texts lf its) (Ok tt) c' /\ Forall (item_ok lf) its /\
    lrun (LS 0 true false Free) its = Some ls' /\ lv ls' = 0 /\ crun (CS GDocs false false) (data (emitted l)) (toks its) st' /\ cg st' = GEnd.
Proof.
  intros Hc Hok Hg. set (lf := break_chars (st_break (effective ev st))). assert (Hlf : lf_ok lf) by exact (break_ok ev st).
  destruct (W_calls lf l (CS GDocs false false) (core (started ev st plan)) (LS 0 true false Free)) as (its & c' & ls' & R & Hc' & Hi & Hl & P).
  - exact (started_CI ev st plan Hc). - reflexivity. - exact Hok. - reflexivity.
  - destruct P as (l2 & st' & El & R2 & Hrun & HC). change (em_events (core (started ev st plan))) with (@nil event) in El. cbn [app] in El.
    assert (Eq : em_events c' = []).
    { destruct (em_events c') as [|e r] eqn:Ee; [reflexivity|]. exfalso. pose proof (crun_grun _ _ _ _ Hrun) as G1. cbn [cg] in G1.
      unfold data in Hg, G1. rewrite El, map_app, grun_app in Hg. unfold data in *. rewrite G1 in Hg. 
      destruct (pending_inside (e :: r) (cg st') GEnd R2 ltac:(discriminate)) as (? & ? & [=]); [|exact Hg]. destruct HC as ((_ & H & _) & _). exact H. }
    rewrite Eq, app_nil_r in El. subst l2. pose proof (crun_grun _ _ _ _ Hrun) as G1. cbn [cg] in G1. assert (E : cg st' = GEnd) by congruence.
    exists its, c', st', ls'. cbv zeta. split; [exact Hlf|]. split; [exact R|]. split; [exact Hi|]. split; [exact Hl|]. split.
    { destruct HC as ((_ & _ & H) & _). rewrite E in H. exact H. }
    split; [exact Hrun|exact E].
Qed.
