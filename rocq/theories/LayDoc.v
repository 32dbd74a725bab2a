(** LayDoc.v -- documents in block or flow layout. *)
From Coq Require Import Lia ZifyBool ZifyNat ZifyN Bool.
From Verif Require Import Base Utf Chars State Reader Scanner Wp ScanFacts RoundScan RoundPlain EState Emitter Document Api EmitText EmitScalar EmitQuoted Spec_Events EventFacts Spec_EmitNames EmitGrammar CanonLex CanonBody LayItems LayScan Spec_Layout LayToks LayKeys LayEmit LayWrite LayNode LayStep.
From Verif Require CanonEmit CanonStep Spec_Lexical.
Import Spec_Lexical (breaks_line).
Open Scope N_scope.

Section lay.
Variable lf : str.
Hypothesis Hlf : lf_ok lf.
Notation lstep := (lstep lf).
Notation lrun := (lrun lf).
Notation texts := (texts lf).
Notation item_ok := (item_ok lf).
Notation itext := (itext lf).
Notation W := (W lf).

(** ** Between documents *)
Record Out (ls : lstate) : Prop := Ou { o_lv : lv ls = 0; o_col : lcol ls = 0; o_li : lli ls = []; o_sl : exists s, lsl ls = [s]; o_key : keyed ls YNo; o_gate : opens_gate ls GMark = true }.
Definition Out1 (ls : lstate) : Prop := Out ls /\ ln ls = Free.
Lemma outer_at ls : Out ls -> exists s1, outer_line ls = Some s1 /\ At [LDone] [] s1 YNo /\ lcol s1 = 0 /\ ln s1 = ln ls.
Proof.
  intros [H1 H2 H3 (s & H4) [H5 H6] _]. unfold outer_line, unsave. rewrite H1, H2, H3, H4, H6. rewrite H4 in H5. apply dead_cons in H5. destruct H5 as [H5 _]. rewrite H5. cbn [N.eqb andb is_empty orb].
  eexists. split; [reflexivity|]. split; [|split; reflexivity]. constructor; try reflexivity; [exists SOff; reflexivity|split; reflexivity].
Qed.
Lemma Out_mark it ls : it = IStart \/ it = IEnd -> Out ls -> exists ls', lstep ls it = Some (ls', itok it) /\ At [LDone] [] ls' YNo /\ lal ls' = false /\ ln ls' = Blank.
Proof.
  intros Hit H. destruct (outer_at ls H) as (s1 & E1 & A1 & _ & _). destruct (At_walk [LDone] [] s1 (itext it) A1) as (s2 & E2 & A2 & _).
  exists (then_ false Blank s2). split; [|split; [apply At_then, A2|split; reflexivity]].
  destruct Hit as [-> | ->]; cbn [LayItems.lstep]; rewrite (o_gate _ H); cbn [guard option_bind]; rewrite E1; cbn [option_bind]; rewrite E2; reflexivity.
Qed.
Lemma Out_line it t ls : match it with IVersion _ | ITagDir _ _ => True | _ => False end -> itext it = t ++ lf -> Out1 ls -> exists ls', lstep ls it = Some (ls', itok it) /\ Out1 ls'.
Proof.
  intros Hit Ht [H Hf]. destruct (outer_at ls H) as (s1 & E1 & A1 & C1 & _). destruct (At_walk [LDone] [] s1 (itext it) A1) as (s2 & E2 & A2 & C2 & _).
  exists (then_ false Free s2). split.
  - destruct it; try contradiction Hit; cbn [LayItems.lstep]; rewrite Hf; cbn [guard option_bind]; rewrite E1; cbn [option_bind]; rewrite E2; reflexivity.
  - apply (At_then _ _ _ _ false Free) in A2. split; [|reflexivity]. constructor; [exact (at_lv _ _ _ _ A2)| |exact (at_li _ _ _ _ A2)|exact (at_below _ _ _ _ A2)|exact (at_key _ _ _ _ A2)|reflexivity].
    cbn [then_ lcol]. rewrite C2, Ht. unfold cadv. rewrite fold_left_app. exact (proj2 (lf_break lf Hlf _)).
Qed.
Lemma Out_break ls : lv ls = 0 -> lli ls = [] -> (exists s, lsl ls = [s]) -> keyed ls YNo -> may_break ls = true -> exists ls', lrun ls (IBr :: repeat ISp 0) = Some (ls', []) /\ Out ls' /\ breaks_to (ln ls) (ln ls').
Proof.
  intros H1 H2 (s & H3) H4 Hm.
  assert (Hb : break_for ls 0) by (unfold break_for, may_break in *; destruct (ln ls) as [| | | |cl b]; auto; split; [destruct cl; [discriminate Hm|reflexivity]|auto]).
  destruct (run_break lf Hlf 0 ls H4 Hb) as (ls' & E & A1 & A2 & A3 & A4 & A5 & A6 & A7 & A8). exists ls'. split; [exact E|]. split; [|exact A6].
  constructor; [congruence|exact A7|congruence|exists SOff; rewrite A8, H3; reflexivity|split; [rewrite A8; apply live_off|exact A4]|].
  unfold opens_gate. destruct (ln ls) as [| | | |cl b]; cbn [breaks_to broken_] in A6; [rewrite A6; reflexivity..|]. destruct A6 as (cl' & ->). reflexivity.
Qed.
Lemma W_out_break x y w c ls (Q : post) : break_chars (em_line_break c) = lf -> em_indent c = (-1)%Z -> lv ls = 0 -> lli ls = [] -> (exists s, lsl ls = [s]) -> keyed ls YNo -> may_break ls = true ->
  (forall y' ls', Out ls' -> breaks_to (ln ls) (ln ls') -> Q [] (mv 0 y' true true c) ls') -> W write_indent (mv x y w false c) ls Q.
Proof.
  intros Hl Hi H1 H2 H3 H4 Hm Hq. destruct (Out_break ls H1 H2 H3 H4 Hm) as (ls' & E & O & N0).
  eapply (W_break lf c); [exact Hl|rewrite Hi; exact E|exact (pend_no _ H4)|exact (pend_no _ (o_key _ O))|]. intros y'. rewrite Hi. apply Hq; assumption.
Qed.
Lemma W_indent_none c y ls (Q : post) : (em_indent c <= 0)%Z -> Q [] (mv 0 y true true c) ls -> W write_indent (mv 0 y true true c) ls Q.
Proof.
  intros Hi Hq. apply (W_still lf _ _ (mv 0 y true true c)); [|auto|exact Hq].
  unfold write_indent. apply runs_get; [reflexivity|]. change (em_indent (mv 0 y true true c)) with (em_indent c).
  change (em_indention (mv 0 y true true c)) with true. change (em_whitespace (mv 0 y true true c)) with true. change (em_column (mv 0 y true true c)) with 0%Z. cbv zeta.
  replace (if (0 <=? em_indent c)%Z then em_indent c else 0%Z) with 0%Z by (destruct (0 <=? em_indent c)%Z eqn:E; lia). cbn [negb orb andb Z.ltb Z.compare when Z.eqb].
  refine (runs_seq _ _ _ [] (mv 0 y true true c) [] _ _ (runs_ret _ _) _).
  apply runs_get; [reflexivity|]. change (em_column (mv 0 y true true c)) with 0%Z. cbn [Z.sub Z.opp Z.add Z.to_nat put_spaces].
  refine (runs_seq _ _ _ [] (mv 0 y true true c) [] _ _ (runs_ret _ _) _). apply r_set_ws.
Qed.
(** *** Directives *)
Lemma W_append t b x y w i c ls (Q : post) :
  (In (td_handle t) (map td_handle (em_tag_directives c)) -> b = true /\ Q [] (mv x y w i c) ls) ->
  (~ In (td_handle t) (map td_handle (em_tag_directives c)) -> Q [] (mv x y w i (set_em_tag_directives (em_tag_directives c ++ [t]) c)) ls) ->
  W (em_append_tag_directive t b) (mv x y w i c) ls Q.
Proof.
  intros H1 H2. unfold em_append_tag_directive. apply W_get; [reflexivity|]. change (em_tag_directives (mv x y w i c)) with (em_tag_directives c).
  destruct (existsb (fun u => str_eqb (td_handle t) (td_handle u)) (em_tag_directives c)) eqn:E.
  - apply existsb_handle in E. destruct (H1 E) as [-> Hq]. apply W_ret, Hq.
  - apply W_set; [inner|keeps_core|]. apply H2. intros H. apply existsb_handle in H. congruence.
Qed.
Lemma W_directives tds : forall x y w i c ls (Q : post), Forall valid_directive tds -> NoDup (map td_handle (em_tag_directives c ++ tds)) ->
  Q [] (mv x y w i (set_em_tag_directives (em_tag_directives c ++ tds) c)) ls ->
  W (iterM (fun t => analyze_tag_directive t ;; em_append_tag_directive t false) tds) (mv x y w i c) ls Q.
Proof.
  induction tds as [|t tds IH]; intros x y w i c ls Q Hv Hn Hq; cbn [iterM].
  - apply W_ret. rewrite app_nil_r, CanonStep.set_tds_id in Hq. exact Hq.
  - inversion Hv as [|? ? Hv1 Hv2]; subst. apply W_seq, W_seq. rewrite (CanonStep.directive_val t Hv1). apply W_ret.
    apply W_append.
    + intros H. exfalso. rewrite map_app in Hn. cbn [map] in Hn. apply NoDup_remove_2 in Hn. apply Hn, in_or_app. left. exact H.
    + intros _. cbn [app]. replace (em_tag_directives c ++ t :: tds) with ((em_tag_directives c ++ [t]) ++ tds) in * by (rewrite <- app_assoc; reflexivity).
      apply IH; [exact Hv2|exact Hn|exact Hq].
Qed.
Lemma W_defaults tds x y w i c ls (Q : post) : em_tag_directives c = tds ->
  Q [] (mv x y w i (set_em_tag_directives (all_tds tds) c)) ls ->
  W (iterM (fun t => em_append_tag_directive t true) default_tag_directives) (mv x y w i c) ls Q.
Proof.
  intros <- Hq. unfold all_tds in Hq. set (t1 := Mk_td (lit "!") (lit "!")) in *. set (t2 := Mk_td (lit "!!") (lit "tag:yaml.org,2002:")) in *.
  change default_tag_directives with [t1; t2] in *. cbn [iterM filter] in *.
  assert (F : forall (tt : tag_directive) l, ~ In (td_handle tt) (map td_handle l) -> existsb (fun u => str_eqb (td_handle tt) (td_handle u)) l = false).
  { intros t l H. apply not_true_iff_false. intros E. apply existsb_handle in E. contradiction. }
  assert (T : forall (tt : tag_directive) l, In (td_handle tt) (map td_handle l) -> existsb (fun u => str_eqb (td_handle tt) (td_handle u)) l = true) by (intros; apply existsb_handle; assumption).
  apply W_seq, W_append; intros H1; [split; [reflexivity|]|]; (apply W_seq, W_append; intros H2; [split; [reflexivity|]|]); apply W_ret; cbn [app] in *.
  - rewrite (T _ _ H1), (T _ _ H2) in Hq. cbn [negb] in Hq. rewrite app_nil_r, CanonStep.set_tds_id in Hq. exact Hq.
  - rewrite (T _ _ H1), (F _ _ H2) in Hq. exact Hq.
  - change (em_tag_directives (set_em_tag_directives (em_tag_directives c ++ [t1]) c)) with (em_tag_directives c ++ [t1]) in H2. rewrite map_app in H2. apply in_app_or in H2.
    assert (H3 : In (td_handle t2) (map td_handle (em_tag_directives c))) by (destruct H2 as [H2|[H2|[]]]; [exact H2|discriminate H2]).
    rewrite (F _ _ H1), (T _ _ H3) in Hq. exact Hq.
  - change (em_tag_directives (set_em_tag_directives (em_tag_directives c ++ [t1]) c)) with (em_tag_directives c ++ [t1]) in H2.
    assert (H3 : ~ In (td_handle t2) (map td_handle (em_tag_directives c))) by (intros H; apply H2; rewrite map_app; apply in_or_app; left; exact H).
    rewrite (F _ _ H1), (F _ _ H3) in Hq. cbn [negb] in Hq. replace (em_tag_directives c ++ [t1; t2]) with ((em_tag_directives c ++ [t1]) ++ [t2]) in Hq by (rewrite <- app_assoc; reflexivity). exact Hq.
Qed.
Lemma W_marker it l y c ls (Q : post) : it = IStart \/ it = IEnd -> itext it = l -> Out ls ->
  (forall x' ls', At [LDone] [] ls' YNo -> lal ls' = false -> ln ls' = Blank -> Q (itok it) (mv x' y false false c) ls') -> W (write_indicator l true false false) (mv 0 y true true c) ls Q.
Proof.
  intros Hit Hx H0 Hq. destruct (Out_mark it ls Hit H0) as (ls' & E & A & L & N0).
  eapply (W_indicator lf it _ true false false 0%Z y true true c ls ls' (itok it)); [exact Hx|destruct Hit as [-> | ->]; exact Logic.I|cbn [andb negb sp app LayScan.lrun]; rewrite E; cbn [option_bind]; rewrite app_nil_r; reflexivity|rewrite (pend_no _ (o_key _ H0)), (pend_at _ _ _ _ A); symmetry; apply app_nil_r|].
  cbn [andb]. apply Hq; assumption.
Qed.
Lemma W_end_line y c ls (Q : post) : break_chars (em_line_break c) = lf -> em_indent c = (-1)%Z -> Out ls ->
  (forall y' ls', Out1 ls' -> Q [TDocumentEnd] (mv 0 y' true true c) ls') -> W (write_indicator (lit "...") true false false ;; write_indent) (mv 0 y true true c) ls Q.
Proof.
  intros Hl Hi H0 Hq. apply W_seq. eapply (W_marker IEnd); [right; reflexivity|reflexivity|exact H0|]. intros x' ls' A L N0.
  eapply W_out_break; [exact Hl|exact Hi|exact (at_lv _ _ _ _ A)|exact (at_li _ _ _ _ A)|exact (at_below _ _ _ _ A)|exact (at_key _ _ _ _ A)|unfold may_break; rewrite N0; reflexivity|]. intros y' l2 O N2. cbn [itok app]. apply Hq. split; [exact O|]. rewrite N0 in N2. exact N2.
Qed.
Lemma W_dir_line it t m y c ls (Q : post) : match it with IVersion _ | ITagDir _ _ => True | _ => False end -> item_ok it -> itext it = t ++ lf -> Out1 ls -> runs m (mv 0 y true true c) (itext it) (Ok tt) (mv 0 (y + 1) true true c) ->
  (forall y' ls', Out1 ls' -> Q (itok it) (mv 0 y' true true c) ls') -> W m (mv 0 y true true c) ls Q.
Proof.
  intros Hit Hok Ht H0 R Hq. destruct (Out_line it t ls Hit Ht H0) as (ls' & E & O).
  eapply (W_runs lf _ _ _ [it] (mv 0 (y + 1) true true c) ls' (itok it) (itok it)).
  - cbn [LayScan.texts flat_map]. rewrite app_nil_r. exact R.
  - apply CanonEmit.mv_core.
  - constructor; [exact Hok|constructor].
  - cbn [LayScan.lrun]. rewrite E. cbn [option_bind]. rewrite app_nil_r. reflexivity.
  - rewrite (pend_no _ (o_key _ (proj1 H0))), (pend_no _ (o_key _ (proj1 O))). symmetry. apply app_nil_r.
  - apply Hq, O.
Qed.
Lemma W_version v y c ls (Q : post) : break_chars (em_line_break c) = lf -> em_indent c = (-1)%Z -> valid_version v -> Out1 ls ->
  (forall y' ls', Out1 ls' -> Q [TVersionDirective (vd_major v) (vd_minor v)] (mv 0 y' true true c) ls') ->
  W (write_indicator (lit "%YAML") true false false ;; write_indicator (if (vd_minor v =? 1)%Z then lit "1.1" else lit "1.2") true false false ;; write_indent) (mv 0 y true true c) ls Q.
Proof.
  intros Hl Hi [Hv1 Hv2] H0 Hq. set (d := if (vd_minor v =? 1)%Z then 1 else 2).
  assert (Ed : Z.of_N d = vd_minor v) by (unfold d; destruct Hv2 as [-> | ->]; reflexivity).
  eapply (W_dir_line (IVersion d) (lit "%YAML 1." ++ [48 + d])); [exact Logic.I|cbn [LayScan.item_ok]; unfold d; destruct (vd_minor v =? 1)%Z; lia|cbn [LayItems.itext]; rewrite <- app_assoc; reflexivity|exact H0| |].
  - cbn [LayItems.itext]. rewrite <- Hl.
    assert (Et : lit "%YAML 1." ++ [48 + d] ++ break_chars (em_line_break c) = lit "%YAML" ++ ([32] ++ (if (vd_minor v =? 1)%Z then lit "1.1" else lit "1.2")) ++ break_chars (em_line_break c))
      by (unfold d; destruct (vd_minor v =? 1)%Z; reflexivity).
    rewrite Et. refine (runs_seq _ _ _ _ _ _ _ _ (r_write_indicator c (lit "%YAML") true false false 0 y true true) _).
    refine (runs_seq _ _ _ _ _ _ _ _ (r_write_indicator c (if (vd_minor v =? 1)%Z then lit "1.1" else lit "1.2") true false false _ _ _ _) _).
    refine (runs_conseq _ _ _ _ _ _ _ _ (CanonEmit.r_indent_break c _ _ _) _ eq_refl _); rewrite Hi; [apply app_nil_r|reflexivity].
  - cbn [itok]. rewrite Ed, <- Hv1. exact Hq.
Qed.
Lemma W_tag_directive t y c ls (Q : post) : break_chars (em_line_break c) = lf -> em_indent c = (-1)%Z -> valid_directive t -> ascii (td_prefix t) -> Out1 ls ->
  (forall y' ls', Out1 ls' -> Q [TTagDirective (td_handle t) (td_prefix t)] (mv 0 y' true true c) ls') ->
  W (write_indicator (lit "%TAG") true false false ;; write_tag_handle (td_handle t) ;; write_tag_content (td_prefix t) true ;; write_indent) (mv 0 y true true c) ls Q.
Proof.
  intros Hl Hi [Hv1 Hv2] Ha H0 Hq.
  destruct (CanonEmit.r_tag_content (td_prefix t) true (0 + 0 + 4 + 1 + Z.of_nat (length (td_handle t)))%Z y false false c Ha) as (x' & R).
  eapply (W_dir_line (ITagDir (td_handle t) (td_prefix t)) (lit "%TAG " ++ td_handle t ++ [32] ++ uri (td_prefix t))); [exact Logic.I|split; [exact Hv1|split; assumption]|cbn [LayItems.itext]; rewrite <- !app_assoc; reflexivity|exact H0| |exact Hq].
  cbn [LayItems.itext]. rewrite <- Hl.
  assert (Et : lit "%TAG " ++ td_handle t ++ [32] ++ uri (td_prefix t) ++ break_chars (em_line_break c) = lit "%TAG" ++ ([32] ++ td_handle t) ++ ([32] ++ uri (td_prefix t)) ++ break_chars (em_line_break c)).
  { change (lit "%TAG ") with (lit "%TAG" ++ [32]). rewrite <- !app_assoc. reflexivity. }
  rewrite Et. refine (runs_seq _ _ _ _ _ _ _ _ (r_write_indicator c (lit "%TAG") true false false 0 y true true) _).
  refine (runs_seq _ _ _ _ _ _ _ _ (CanonEmit.r_tag_handle (td_handle t) _ _ _ _ _) _). refine (runs_seq _ _ _ _ _ _ _ _ R _).
  refine (runs_conseq _ _ _ _ _ _ _ _ (CanonEmit.r_indent_break c _ _ _) _ eq_refl _); rewrite Hi; [apply app_nil_r|reflexivity].
Qed.
Lemma W_tag_directives tds : forall y c ls (Q : post), break_chars (em_line_break c) = lf -> em_indent c = (-1)%Z -> Forall valid_directive tds -> Forall (fun t => ascii (td_prefix t)) tds -> (tds = [] -> Out ls) -> (tds <> [] -> Out1 ls) ->
  (forall y' ls', Out ls' -> (tds = [] -> y' = y /\ ls' = ls) -> Q (map (fun t => TTagDirective (td_handle t) (td_prefix t)) tds) (mv 0 y' true true c) ls') ->
  W (iterM (fun t => write_indicator (lit "%TAG") true false false ;; write_tag_handle (td_handle t) ;; write_tag_content (td_prefix t) true ;; write_indent) tds) (mv 0 y true true c) ls Q.
Proof.
  induction tds as [|t tds IH]; intros y c ls Q Hl Hi Hv Ha H0 H1 Hq; cbn [iterM map]; [apply W_ret, Hq; auto|].
  apply W_seq. apply W_tag_directive; [exact Hl|exact Hi|exact (Forall_inv Hv)|exact (Forall_inv Ha)|apply H1; discriminate|]. intros y1 ls1 O1.
  apply IH; [exact Hl|exact Hi|exact (Forall_inv_tail Hv)|exact (Forall_inv_tail Ha)|intros _; apply O1|intros _; exact O1|]. intros y2 ls2 O2 _. apply (Hq y2); [exact O2|discriminate].
Qed.
(** ** The start and the end of a document *)
Lemma mv_open n x y w i c : set_em_open_ended n (mv x y w i c) = mv x y w i (set_em_open_ended n c). Proof. reflexivity. Qed.
Lemma mv_tds t x y w i c : set_em_tag_directives t (mv x y w i c) = mv x y w i (set_em_tag_directives t c). Proof. reflexivity. Qed.
Lemma W_doc_start u vd tds imp e (first oe : bool) y c ls (Q : post) : e_data e = EvDocumentStart vd tds imp -> valid_directives (e_data e) -> Forall (fun t => ascii (td_prefix t)) tds ->
  good lf u c -> em_tag_directives c = [] -> em_states c = [] -> em_indents c = [] -> em_indent c = (-1)%Z -> em_flow_level c = 0%Z -> Out ls -> (oe = false -> ln ls = Free) -> (first = true -> ls = ls0 /\ oe = false) -> (em_open_ended c =? 0)%Z = negb oe ->
  (forall x' y' w' i' c' ls' b, good lf u c' -> em_events c' = em_events c -> em_tag_directives c' = all_tds tds -> (forall q, D [LRoot b] false false q (mv x' y' w' i' c') ls') -> (b = true -> first = true /\ imp = true /\ vd = None /\ tds = []) ->
     forall tk, (forall f, lcstep (LT (LDocs first) f oe) (e_data e) tk (LT (LDoc tds [LRoot b]) false false)) -> Q tk (mv x' y' w' i' c') ls') ->
  W (emit_document_start e first) (mv 0 y true true c) ls Q.
Proof.
  intros Ee Hv Ha (G1 & G2 & G3 & G4) Ht Hst Hin Hi Hfl H0 Hfr Hfirst Ho Hq. unfold emit_document_start. rewrite Ee in *. destruct Hv as (Hv1 & Hv2 & Hv3).
  apply (W_val lf _ tt); [intros s _; apply CanonStep.version_val, Hv1|].
  apply W_seq, W_directives; [exact Hv2|rewrite Ht; exact Hv3|]. rewrite Ht. cbn [app].
  set (c1 := set_em_tag_directives tds c). apply W_seq, (W_defaults tds); [reflexivity|]. cbn [app]. set (c2 := set_em_tag_directives (all_tds tds) c1).
  apply W_get; [reflexivity|]. change (em_canonical (mv 0 y true true c2)) with (em_canonical c). change (em_open_ended (mv 0 y true true c2)) with (em_open_ended c). rewrite G1. cbn [negb].
  rewrite andb_true_r. cbv zeta.
  assert (L2 : break_chars (em_line_break c2) = lf) by exact G3. assert (I2 : em_indent c2 = (-1)%Z) by exact Hi.
  set (has := has_directives vd tds) in *. assert (Eh : has = match vd with Some _ => true | None => false end || negb (is_empty tds)) by (destruct vd; reflexivity).
  apply W_seq.
  assert (M : forall Q' : post, (forall y' ls', Out ls' -> (has = true -> Out1 ls') -> (has = false -> ls' = ls) -> Q' (if oe && has then [TDocumentEnd] else []) (mv 0 y' true true c2) ls') ->
    W (when ((match vd with Some _ => true | None => false end || negb (is_empty tds)) && negb (em_open_ended c =? 0)%Z) (write_indicator (lit "...") true false false ;; write_indent)) (mv 0 y true true c2) ls Q').
  { intros Q' H'. rewrite <- Eh, Ho. rewrite negb_involutive. rewrite (andb_comm has). clearbody has.
    destruct (oe && has) eqn:E; cbn [when].
    - eapply W_end_line; [exact L2|exact I2|exact H0|]. intros y' ls' O. apply H'; [apply O|intros _; exact O|]. intros ->. rewrite andb_false_r in E. discriminate E.
    - apply W_ret, H'; [exact H0| |reflexivity]. intros ->. split; [exact H0|]. apply Hfr. rewrite andb_true_r in E. exact E. }
  apply M. clear M. intros y1 ls1 O1 F1 U1. cbv beta. apply W_seq, W_set; [inner|keeps_core|]. change (set_em_open_ended 0 (mv 0 y1 true true c2)) with (mv 0 y1 true true (set_em_open_ended 0 c2)).
  set (c3 := set_em_open_ended 0 c2). assert (L3 : break_chars (em_line_break c3) = lf) by exact G3. assert (I3 : em_indent c3 = (-1)%Z) by exact Hi.
  apply W_seq.
  assert (M : forall Q' : post, (forall y' ls', Out ls' -> (tds <> [] -> Out1 ls') -> (vd = None -> ls' = ls1) -> Q' (match vd with Some v => [TVersionDirective (vd_major v) (vd_minor v)] | None => [] end) (mv 0 y' true true c3) ls') ->
    W (match vd with Some v => write_indicator (lit "%YAML") true false false ;; write_indicator (if (vd_minor v =? 1)%Z then lit "1.1" else lit "1.2") true false false ;; write_indent | None => ret tt end) (mv 0 y1 true true c3) ls1 Q').
  { intros Q' H'. destruct vd as [v|].
    - apply W_version; [exact L3|exact I3|exact Hv1|apply F1; rewrite Eh; reflexivity|]. intros y' ls' O. apply H'; [apply O|intros _; exact O|discriminate].
    - apply W_ret, H'; [exact O1| |reflexivity]. intros Hne. apply F1. rewrite Eh. destruct tds; [congruence|reflexivity]. }
  apply M. clear M. intros y2 ls2 O2 F2 U2. cbv beta. apply W_seq. apply W_tag_directives; [exact L3|exact I3|exact Hv2|exact Ha|intros _; exact O2|exact F2|]. intros y3 ls3 O3 U3. cbv beta.
  apply W_seq.
  assert (Fin : forall x4 y4 w4 i4 ls4 b t, (b = true -> first = true /\ imp = true /\ vd = None /\ tds = []) -> (forall q, D [LRoot b] false false q (mv x4 y4 w4 i4 (set_em_open_ended 0 (set_em_state EDocumentContent c3))) ls4) ->
     (forall f, lcstep (LT (LDocs first) f oe) (EvDocumentStart vd tds imp) ((if oe && has then [TDocumentEnd] else []) ++ (match vd with Some v => [TVersionDirective (vd_major v) (vd_minor v)] | None => [] end) ++ map (fun t => TTagDirective (td_handle t) (td_prefix t)) tds ++ t) (LT (LDoc tds [LRoot b]) false false)) ->
     W (goto_estate EDocumentContent ;; modify (set_em_open_ended 0%Z)) (mv x4 y4 w4 i4 c3) ls4 (fun t' c' l' => Q ((if oe && has then [TDocumentEnd] else []) ++ [] ++ (match vd with Some v => [TVersionDirective (vd_major v) (vd_minor v)] | None => [] end) ++ map (fun t => TTagDirective (td_handle t) (td_prefix t)) tds ++ t ++ t') c' l')).
  { intros x4 y4 w4 i4 ls4 b t Hb HD Hs. apply W_seq, W_goto. cbv beta. set (c4 := set_em_state EDocumentContent c3) in *. apply W_set; [inner|keeps_core|].
    rewrite mv_open. cbn [app]. rewrite !app_nil_r.
    apply (Hq x4 y4 w4 i4 (set_em_open_ended 0 c4) ls4 b); [split; [exact G1|split; [exact G2|split; [exact G3|exact G4]]]|reflexivity|reflexivity|exact HD|exact Hb|exact Hs]. }
  assert (R1 : forall b, ind_ok [LRoot b] (-1)%Z [] []) by (intros b; constructor; exact Logic.I).
  assert (M : forall Q' : post, (forall x4 y4 w4 i4 ls4 b t, (b = true -> first = true /\ imp = true /\ vd = None /\ tds = []) -> (forall q, D [LRoot b] false false q (mv x4 y4 w4 i4 (set_em_open_ended 0 (set_em_state EDocumentContent c3))) ls4) ->
     (forall f, lcstep (LT (LDocs first) f oe) (EvDocumentStart vd tds imp) ((if oe && has then [TDocumentEnd] else []) ++ (match vd with Some v => [TVersionDirective (vd_major v) (vd_minor v)] | None => [] end) ++ map (fun t => TTagDirective (td_handle t) (td_prefix t)) tds ++ t) (LT (LDoc tds [LRoot b]) false false)) -> Q' t (mv x4 y4 w4 i4 c3) ls4) ->
     W (when (negb (imp && first && match vd with Some _ => false | None => true end && is_empty tds)) (write_indent ;; write_indicator (lit "---") true false false ;; when false write_indent)) (mv 0 y3 true true c3) ls3 Q').
  { intros Q' H'. destruct (imp && first && match vd with Some _ => false | None => true end && is_empty tds) eqn:E; cbn [negb when].
    - apply andb_true_iff in E. destruct E as [E E4]. apply andb_true_iff in E. destruct E as [E E3]. apply andb_true_iff in E. destruct E as [E1 E2].
      assert (vd = None) as -> by (destruct vd; [discriminate E3|reflexivity]). assert (tds = []) as -> by (destruct tds; [reflexivity|discriminate E4]). subst imp first.
      destruct (Hfirst eq_refl) as [-> ->]. assert (ls3 = ls0) as ->. { destruct (U3 eq_refl) as [_ ->]. rewrite (U2 eq_refl). apply U1. reflexivity. }
      apply W_ret, (H' _ _ _ _ _ true); [auto| |].
      + intros q. split; [reflexivity|]. split; [exact Hst|]. split; [exact Hfl|]. exists []. split; [|repeat split]. cbn [op]. change (ind_ok [LRoot true] (em_indent c) (em_indents c) []). rewrite Hi, Hin. apply R1.
      + intros f. cbn [andb app map]. apply L_doc_implicit.
    - apply W_seq, W_indent_none; [rewrite I3; lia|]. cbn [app]. apply W_seq. eapply (W_marker IStart (lit "---")); [left; reflexivity|reflexivity|exact O3|]. intros x4 ls4 A4 L4 N4. cbn [when]. apply W_ret. cbn [itok app]. apply (H' _ _ _ _ _ false); [discriminate| |].
      + intros q. split; [reflexivity|]. split; [exact Hst|]. split; [exact Hfl|]. exists []. split; [cbn [op]; change (ind_ok [LRoot false] (em_indent c) (em_indents c) []); rewrite Hi, Hin; apply R1|].
        cbn [DN]. split; [reflexivity|]. split; [reflexivity|]. split; [|split; reflexivity]. apply At_NP; [exact A4|exact L4|rewrite N4; exact Logic.I|intros _; cbn; lia].
      + intros f. replace ((if oe && has then [TDocumentEnd] else []) ++ match vd with Some v => [TVersionDirective (vd_major v) (vd_minor v)] | None => [] end ++ map (fun t => TTagDirective (td_handle t) (td_prefix t)) tds ++ [TDocumentStart]) with
          ((if oe && has_directives vd tds then [TDocumentEnd] else []) ++ directive_toks vd tds ++ [TDocumentStart]); [apply L_doc|]. unfold directive_toks, has. rewrite <- app_assoc. reflexivity. }
  apply M. clear M. intros x4 y4 w4 i4 ls4 b t Hb HD Hs. apply (Fin x4 y4 w4 i4 ls4 b t Hb HD Hs).
Qed.
Lemma W_doc_end u imp e ds sb q x y w i c ls (Q : post) : e_data e = EvDocumentEnd imp -> good lf u c -> D [LDone] false sb q (mv x y w i c) ls ->
  (forall y' c' ls', good lf u c' -> em_events c' = em_events c -> em_state c' = EDocumentStart -> em_states c' = [] -> em_indents c' = [] -> em_indent c' = (-1)%Z -> em_flow_level c' = 0%Z -> Out ls' -> (imp = false -> ln ls' = Free) ->
     (em_open_ended c' =? 0)%Z = negb imp -> forall tk, lcstep (LT (LDoc ds [LDone]) false false) (e_data e) tk (LT (LDocs false) false imp) -> Q tk (mv 0 y' true true c') ls') ->
  W (emit_document_end e) (mv x y w i c) ls Q.
Proof.
  intros Ee (G1 & G2 & G3 & G4) (H1 & H2 & H3 & li & H4 & H5) Hq. cbn [op DN] in *. unfold DNn in H5.
  destruct sb; [destruct H5 as (_ & _ & H5); contradiction H5|]. cbn [blk] in H5. change (em_indent (mv x y w i c)) with (em_indent c) in H4. change (em_indents (mv x y w i c)) with (em_indents c) in H4.
  change (Bk li ls /\ after w i x ls) in H5.
  assert (li = [] /\ em_indent c = (-1)%Z /\ em_indents c = []) as (-> & Hi & Hin) by (inversion H4; auto). destruct H5 as [[B1 B2 B3 B4 B5] Haf].
  unfold emit_document_end. rewrite Ee in *. apply W_seq.
  assert (M : forall Q' : post, (forall y' ls', Out ls' -> Q' [] (mv 0 y' true true c) ls') -> W write_indent (mv x y w i c) ls Q').
  { intros Q' H'. destruct Haf as [[-> Hm]|(-> & -> & -> & (cl & En) & Hc & _)].
    - eapply W_out_break; [exact G3|exact Hi|exact B1|exact B2|exact B3|exact B5|exact Hm|]. intros y1 l1 O1 _. apply H', O1.
    - apply W_indent_none; [rewrite Hi; lia|]. apply H'. constructor; [exact B1|exact Hc|exact B2|exact B3|exact B5|unfold opens_gate; rewrite En; reflexivity]. }
  apply M. clear M. intros y1 l1 O1. cbn [app].
  apply W_get; [reflexivity|]. change (em_open_ended (mv 0 y1 true true c)) with (em_open_ended c).
  apply W_seq.
  assert (M : forall Q' : post, (forall n y' ls', (n =? 0)%Z = negb imp -> Out ls' -> (imp = false -> ln ls' = Free) -> Q' (if imp then [] else [TDocumentEnd]) (mv 0 y' true true (set_em_open_ended n c)) ls') ->
    W (if negb imp then write_indicator (lit "...") true false false ;; modify (set_em_open_ended 0%Z) ;; write_indent else when (em_open_ended c =? 0)%Z (modify (set_em_open_ended 1%Z))) (mv 0 y1 true true c) l1 Q').
  { intros Q' H'. destruct imp; cbn [negb].
    - destruct (em_open_ended c =? 0)%Z eqn:Eo; cbn [when].
      + apply W_set; [inner|keeps_core|]. apply (H' 1%Z y1); [reflexivity|exact O1|discriminate].
      + apply W_ret. replace c with (set_em_open_ended (em_open_ended c) c) at 1 by (destruct c; reflexivity). apply (H' (em_open_ended c) y1); [exact Eo|exact O1|discriminate].
    - apply W_seq. eapply (W_marker IEnd); [right; reflexivity|reflexivity|exact O1|]. intros x2 l2 A2 L2 N2. apply W_seq, W_set; [inner|keeps_core|].
      change (set_em_open_ended 0 (mv x2 y1 false false c)) with (mv x2 y1 false false (set_em_open_ended 0 c)). cbn [app itok].
      eapply W_out_break; [exact G3|exact Hi|exact (at_lv _ _ _ _ A2)|exact (at_li _ _ _ _ A2)|exact (at_below _ _ _ _ A2)|exact (at_key _ _ _ _ A2)|unfold may_break; rewrite N2; reflexivity|]. intros y2 l3 O3 N3. apply (H' 0%Z y2); [reflexivity|exact O3|]. intros _. rewrite N2 in N3. exact N3. }
  apply M. clear M. intros n y2 ls2 Hn O2 N2. cbv beta. set (c2 := set_em_open_ended _ c).
  apply W_seq. apply (W_still lf _ _ (mv 0 y2 true true c2)); [apply runs_flush|auto|]. cbn [app].
  apply W_seq, W_goto. cbn [app]. set (c3 := set_em_state EDocumentStart c2). apply W_set; [inner|keeps_core|]. rewrite app_nil_r, mv_tds.
  eapply Hq; [repeat split; try assumption; apply G2|reflexivity|reflexivity|exact H2|exact Hin|exact Hi|exact H3|exact O2|exact N2|exact Hn|]. apply L_end.
Qed.
(** ** The end of the stream *)
Lemma W_stream_end u e first (oe : bool) y c ls (Q : post) : e_data e = EvStreamEnd -> good lf u c -> em_indent c = (-1)%Z -> Out ls -> (em_open_ended c =? 0)%Z = negb oe ->
  (forall c' ls', good lf u c' -> em_events c' = em_events c -> Out ls' -> forall tk, (forall f, lcstep (LT (LDocs first) f oe) (e_data e) tk (LT LEndS false false)) -> Q tk c' ls') ->
  W (emit_document_start e first) (mv 0 y true true c) ls Q.
Proof.
  intros Ee (G1 & G2 & G3 & G4) Hi H0 Ho Hq. unfold emit_document_start. rewrite Ee in *. apply W_get; [reflexivity|]. change (em_open_ended (mv 0 y true true c)) with (em_open_ended c). apply W_seq.
  set (b := (em_open_ended c =? 2)%Z). assert (Eb : b = true -> oe = true) by (unfold b; intros E; destruct oe; [reflexivity|]; cbn in Ho; lia).
  assert (M : forall Q' : post, (forall n y' ls', Out ls' -> Q' (if b then [TDocumentEnd] else []) (mv 0 y' true true (set_em_open_ended n c)) ls') ->
    W (when b (write_indicator (lit "...") true false false ;; modify (set_em_open_ended 0%Z) ;; write_indent)) (mv 0 y true true c) ls Q').
  { intros Q' H'. clearbody b. destruct b; cbn [when].
    - apply W_seq. eapply (W_marker IEnd); [right; reflexivity|reflexivity|exact H0|]. intros x2 l2 A2 L2 N2. apply W_seq, W_set; [inner|keeps_core|].
      change (set_em_open_ended 0 (mv x2 y false false c)) with (mv x2 y false false (set_em_open_ended 0 c)). cbn [app itok].
      eapply W_out_break; [exact G3|exact Hi|exact (at_lv _ _ _ _ A2)|exact (at_li _ _ _ _ A2)|exact (at_below _ _ _ _ A2)|exact (at_key _ _ _ _ A2)|unfold may_break; rewrite N2; reflexivity|]. intros y2 l3 O3 N3. apply (H' 0%Z y2), O3.
    - apply W_ret. replace c with (set_em_open_ended (em_open_ended c) c) at 1 by (destruct c; reflexivity). apply H', H0. }
  apply M. clear M. intros n y2 ls2 O2. cbv beta. set (c2 := set_em_open_ended _ c).
  apply W_seq. apply (W_still lf _ _ (mv 0 y2 true true c2)); [apply runs_flush|auto|]. cbn [app].
  apply W_goto. rewrite app_nil_r.
  eapply Hq; [repeat split; try assumption; apply G2|reflexivity|exact O2|]. intros f. replace (if b then [TDocumentEnd] else []) with (if oe && b then [TDocumentEnd] else []) by (clearbody b; destruct b; [rewrite Eb by reflexivity; reflexivity|rewrite andb_false_r; reflexivity]). apply L_stream_end.
Qed.
End lay.
