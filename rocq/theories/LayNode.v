(** LayNode.v -- a node in block or flow layout: its properties, and a scalar, an alias or the choice of a collection's style. *)
From Coq Require Import Lia ZifyBool ZifyNat ZifyN Bool.
From Verif Require Import Base Utf Chars State Reader Scanner Wp ScanFacts RoundScan RoundPlain EState Emitter Document Api EmitText EmitScalar EmitQuoted Spec_Events EventFacts Spec_EmitNames EmitGrammar CanonLex CanonBody LayItems LayScan Spec_Layout LayToks LayKeys LayEmit LayWrite.
From Verif Require CanonEmit CanonStep Spec_Lexical Spec_Styles StyleFacts RoundLiteral EmitLiteral.
Import Spec_Lexical (breaks_line).
Open Scope N_scope.

(** ** Analysis *)
Definition an_ok (u : bool) (tds : list tag_directive) (d : event_data) (an : analysis) : Prop :=
  match d with
  | EvAlias a => an_anchor_a an = Some (a, true)
  | EvScalar a t v pi qi _ => an_anchor_a an = option_map (fun a => (a, false)) a /\ CanonEmit.tag_an tds (kept_tag t (pi || qi)) (an_tag an) /\ an_scalar an = Some (analyze_scalar u v)
  | EvSequenceStart a t i _ | EvMappingStart a t i _ => an_anchor_a an = option_map (fun a => (a, false)) a /\ CanonEmit.tag_an tds (kept_tag t i) (an_tag an)
  | _ => True
  end.
Lemma kept_written d : written_tag false d = match d with EvScalar _ t _ pi qi _ => kept_tag t (pi || qi) | EvSequenceStart _ t i _ | EvMappingStart _ t i _ => kept_tag t i | _ => None end.
Proof. destruct d; try reflexivity; cbn [written_tag orb]; unfold kept_tag; [destruct plain_implicit, quoted_implicit; reflexivity|destruct implicit; reflexivity..]. Qed.
Lemma opt_tag_cond t b tds : analyze_opt_tag t (negb b) tds = analyze_opt_tag (kept_tag t b) true tds.
Proof. unfold kept_tag. destruct b, t; reflexivity. Qed.
Lemma event_val e tds c : em_canonical c = false -> valid_names false (e_data e) -> all ascii (written_tag false (e_data e)) ->
  exists an, (forall s, core s = c -> analyze_event e tds s = (Ok an, s)) /\ an_ok (em_unicode c) tds (e_data e) an.
Proof.
  intros Hc [Hv Hw] Ha. unfold analyze_event.
  assert (Hs : forall s, core s = c -> em_canonical s = false /\ em_unicode s = em_unicode c) by (intros s <-; split; [exact Hc|reflexivity]).
  rewrite kept_written in Hw, Ha.
  destruct (e_data e) as [en| |vd tdl i|i|a|a t v pi qi sty|a t i sty| |a t i sty|]; cbn [anchor_in] in Hv;
    try (exists analysis_default; split; [intros s _; reflexivity|exact Logic.I]).
  - exists (Mk_analysis (Some (a, true)) None None). split; [|reflexivity]. intros s _. unfold bind at 1, get. rewrite (CanonEmit.anchor_val _ _ Hv). reflexivity.
  - destruct (CanonEmit.opt_tag_val _ tds Hw Ha) as (o & Eo & Ho). exists (Mk_analysis (option_map (fun a => (a, false)) a) o (Some (analyze_scalar (em_unicode c) v))). split.
    + intros s H. destruct (Hs s H) as [H1 H2]. unfold bind at 1, get. rewrite (CanonEmit.opt_anchor_val _ Hv), H1. cbn [orb]. rewrite <- negb_orb, opt_tag_cond, Eo, H2. reflexivity.
    + split; [reflexivity|]. split; [exact Ho|reflexivity].
  - destruct (CanonEmit.opt_tag_val _ tds Hw Ha) as (o & Eo & Ho). exists (Mk_analysis (option_map (fun a => (a, false)) a) o None). split.
    + intros s H. destruct (Hs s H) as [H1 H2]. unfold bind at 1, get. rewrite (CanonEmit.opt_anchor_val _ Hv), H1. cbn [orb]. rewrite opt_tag_cond, Eo. reflexivity.
    + split; [reflexivity|exact Ho].
  - destruct (CanonEmit.opt_tag_val _ tds Hw Ha) as (o & Eo & Ho). exists (Mk_analysis (option_map (fun a => (a, false)) a) o None). split.
    + intros s H. destruct (Hs s H) as [H1 H2]. unfold bind at 1, get. rewrite (CanonEmit.opt_anchor_val _ Hv), H1. cbn [orb]. rewrite opt_tag_cond, Eo. reflexivity.
    + split; [reflexivity|exact Ho].
Qed.

(** ** Styles *)
Local Ltac fin3 := split; [let D := fresh in intros [D|D]; discriminate D|split; [discriminate|auto 6]].
Lemma style_choice s u pi style v (no : bool) : em_canonical s = false ->
  let st := choose_style s pi style (analyze_scalar u v) no in let flow := negb (em_flow_level s =? 0)%Z in
  (st = SPlain -> Spec_Styles.plain_text u flow v /\ (v = [] -> flow = false /\ em_simple_key_context s = false) /\ (no = true -> pi = true) /\ (style = SAny \/ style = SPlain)) /\
  (st = SSingle -> Spec_Styles.single_text u v) /\ (st = SLiteral \/ st = SFolded -> Spec_Styles.block_text u v /\ v <> [] /\ flow = false /\ em_simple_key_context s = false) /\ (st = SFolded -> style = SFolded) /\ (st = SPlain \/ st = SSingle \/ st = SDouble \/ st = SLiteral \/ st = SFolded).
Proof.
  intros Hc st flow. subst st. unfold choose_style. rewrite Hc. fold flow. set (key := em_simple_key_context s).
  assert (P : (flow && negb (sa_flow_plain_allowed (analyze_scalar u v)) || negb flow && negb (sa_block_plain_allowed (analyze_scalar u v))) = false -> Spec_Styles.plain_text u flow v).
  { intros H. destruct v as [|x v']; [apply StyleFacts.plain_text_empty|]. apply StyleFacts.analysis_plain; [discriminate|]. destruct flow; cbn [negb andb orb] in H; [rewrite orb_false_r in H|]; apply negb_false_iff, H. }
  pose proof (StyleFacts.analysis_single u v) as S. pose proof (StyleFacts.analysis_block u v) as B. pose proof (StyleFacts.analysis_value u v) as V. set (sa := analyze_scalar u v) in *. rewrite V. set (pa := flow && _ || _) in *.
  assert (Sg : let st := if style_eqb SSingle SSingle && negb (sa_single_quoted_allowed sa) then SDouble else SSingle in
     (st = SPlain -> False) /\ (st = SSingle -> Spec_Styles.single_text u v) /\ (st = SSingle \/ st = SDouble)).
  { cbn [style_eqb andb]. destruct (sa_single_quoted_allowed sa) eqn:Es; cbn [negb]; (split; [discriminate|]); (split; [|auto]); [intros _; apply S, eq_refl|discriminate]. }
  destruct style; try congruence; cbn [style_eqb]; (destruct (key && sa_multiline sa); cbn [style_eqb andb orb]; [split; [discriminate|]; split; [discriminate|]; fin3|]).
  1,2: destruct (pa || is_empty v && (flow || key) || no && negb pi) eqn:Ep; cbn [style_eqb andb orb];
    [cbn [style_eqb andb] in Sg; destruct (negb (sa_single_quoted_allowed sa)); cbn [style_eqb andb orb]; [split; [discriminate|]; split; [discriminate|]; fin3|split; [discriminate|]; split; [apply Sg|]; fin3]|].
  1,2: apply orb_false_iff in Ep; destruct Ep as [Ep E3]; apply orb_false_iff in Ep; destruct Ep as [E1 E2]; (split; [intros _|split; [discriminate|]; fin3]);
    (split; [apply P, E1|]); (split; [intros Ev; rewrite Ev in E2; cbn [is_empty andb] in E2; apply orb_false_iff in E2; exact E2|]); (split; [intros En; rewrite En in E3; destruct pi; [reflexivity|discriminate]|auto]).
  - cbn [style_eqb andb] in Sg. destruct (negb (sa_single_quoted_allowed sa)); cbn [style_eqb andb orb]; [split; [discriminate|]; split; [discriminate|]; fin3|split; [discriminate|]; split; [apply Sg|]; fin3].
  - split; [discriminate|]. split; [discriminate|]. fin3.
  - destruct (negb (sa_block_allowed sa) || flow || key) eqn:Eb; (split; [discriminate|]; split; [discriminate|]); [fin3|]. split; [|split; [discriminate|auto 6]]. intros _. apply orb_false_iff in Eb. destruct Eb as [Eb E3]. apply orb_false_iff in Eb. destruct Eb as [E1 E2].
    apply negb_false_iff in E1. apply B in E1. destruct E1. auto.
  - destruct (negb (sa_block_allowed sa) || flow || key) eqn:Eb; (split; [discriminate|]; split; [discriminate|]); [fin3|]. split; [|split; [reflexivity|auto 6]]. intros _. apply orb_false_iff in Eb. destruct Eb as [Eb E3]. apply orb_false_iff in Eb. destruct Eb as [E1 E2].
    apply negb_false_iff in E1. apply B in E1. destruct E1. auto.
Qed.
Lemma block_allowed u v : Spec_Styles.block_text u v -> Forall (fun ch => allowed_char ch = true) v.
Proof. intros (H & _). eapply Forall_impl; [|exact H]. intros ch [W _]. unfold Spec_Styles.printable in W. unfold allowed_char, in_range. lia. Qed.

(** ** Simple keys *)
Definition alen (an : analysis) : N := match an_anchor_a an with Some (a, _) => str_len a | None => 0 end.
Definition key_fits (d : event_data) (an : analysis) (s : est) : bool :=
  match d with
  | EvAlias _ => alen an <=? 128
  | EvScalar _ _ v _ _ _ => negb (sa_multiline (analyze_scalar (em_unicode s) v)) && (alen an + tag_len (an_tag an) + str_len v <=? 128)
  | EvSequenceStart _ _ _ _ => check_empty_sequence d s && (alen an + tag_len (an_tag an) <=? 128)
  | EvMappingStart _ _ _ _ => check_empty_mapping d s && (alen an + tag_len (an_tag an) <=? 128)
  | _ => false
  end.
Lemma check_val e an tds c s : an_ok (em_unicode c) tds (e_data e) an -> core s = c -> check_simple_key e an s = (Ok (key_fits (e_data e) an c), s).
Proof.
  intros Ha <-. unfold check_simple_key, key_fits, alen, tag_len. rewrite (EmitSession.b_get _ s). cbv zeta.
  destruct (e_data e) as [en| |vd tdl i|i|a|a t v pi qi sty|a t i sty| |a t i sty|]; try reflexivity.
  destruct Ha as (_ & _ & ->). rewrite StyleFacts.analysis_value. reflexivity.
Qed.

Record keep (c c' : est) : Prop := Keep {
  k_can : em_canonical c' = em_canonical c; k_best : em_best_indent c' = em_best_indent c; k_lb : em_line_break c' = em_line_break c; k_un : em_unicode c' = em_unicode c;
  k_ev : em_events c' = em_events c; k_tds : em_tag_directives c' = em_tag_directives c;
  k_in : em_indent c' = em_indent c; k_ins : em_indents c' = em_indents c; k_fl : em_flow_level c' = em_flow_level c }.
Lemma keep_refl c : keep c c. Proof. constructor; reflexivity. Qed.
(** An empty plain scalar of which nothing is written. *)
Definition blank_scalar (d : event_data) : Prop :=
  match d with EvScalar None t [] pi qi sty => kept_tag t (pi || qi) = None /\ pi = true /\ (sty = SAny \/ sty = SPlain) | _ => False end.
Definition style_in (d : event_data) : Prop := match d with EvScalar _ _ v _ _ SFolded => Spec_Folded.always_folds_well v | _ => True end.
Definition fine (tds : list tag_directive) (d : event_data) : Prop := valid_event false d /\ CanonStep.value_ok d /\ all (CanonStep.tag_fine tds) (written_tag false d) /\ style_in d.

Definition first_state (a : act) : estate :=
  match a with NSeq SkFlow => EFlowSequenceFirstItem | NSeq _ => EBlockSequenceFirstItem | NMap true => EBlockMappingFirstKey | _ => EFlowMappingFirstKey end.
Definition in_block (a : act) : bool := match a with NSeq SkFlow | NMap false => false | _ => true end.
Definition end_head (a : act) (q : list event) : bool := match a, q with NSeq _, n :: _ => match e_data n with EvSequenceEnd => true | _ => false end | NMap _, n :: _ => match e_data n with EvMappingEnd => true | _ => false end | _, _ => false end.
Section lay.
Variable lf : str.
Hypothesis Hlf : lf_ok lf.
Notation lstep := (lstep lf).
Notation lrun := (lrun lf).
Notation texts := (texts lf).
Notation item_ok := (item_ok lf).
Notation itext := (itext lf).
Notation W := (W lf).

Definition node_out (d : event_data) (tk : list token_data) (a : act) (st : estate) (rs : list estate) (fs : list lframe) (li : list N) (sb mp : bool) (x : Z) (w i : bool) (ls : lstate) (c' : est) (ls' : lstate) : Prop :=
  match a with
  | NLeaf => em_state c' = st /\ em_states c' = rs /\ (em_whitespace c' = false /\ em_indention c' = false /\
      (if sb then exists n, 1 <= n /\ At fs li ls' (YLive n) /\ opens_gate ls' GVal = true /\ (lv ls' = 0 -> (LayItems.top li <= Z.of_N (lcol ls'))%Z) else At fs li ls' YNo /\ opens_gate ls' GSep = true) \/
      sb = false /\ flows fs = 0 /\ Bk li ls' /\ after (em_whitespace c') (em_indention c') (em_column c') ls')
  | NEmpty => em_state c' = st /\ em_states c' = rs /\ em_whitespace c' = false /\ em_indention c' = false /\ sb = false /\ flows fs = 0 /\ NP false fs li ls' YNo /\ (w = true -> tk <> [])
  | _ => em_state c' = first_state a /\ em_states c' = st :: rs /\ em_mapping_context c' = mp /\
      (exists k, NP (em_whitespace c') fs li ls' k /\ (k = YNo <-> sb = false) /\ room k 10) /\
      (em_indention c' = true -> i = true /\ em_column c' = x /\ em_whitespace c' = w /\ ls' = ls) /\ (em_whitespace c' = true -> w = true /\ em_indention c' = i) /\
      (in_block a = true -> flows fs = 0 /\ sb = false /\ end_head a (em_events c') = false) /\ (sb = true -> end_head a (em_events c') = true) /\
      match a with NSeq SkBlock => mp && negb (em_indention c') = false | NSeq SkInd => mp = true /\ em_indention c' = false | _ => True end
  end.
Lemma At_space_key fs li ls n : At fs li ls (YLive n) -> 1 <= n -> ln ls = Sep false ->
  exists ls', lstep ls ISp = Some (ls', []) /\ At fs li ls' (YLive (n - 1)) /\ ln ls' = Free /\ lcol ls' = lcol ls + 1 /\ pend ls' = [] /\ pend ls = [].
Proof.
  intros H Hn Hs. destruct (walk_ok [32] ls (YLive n) fs (at_key _ _ _ _ H) (at_below _ _ _ _ H)) as (s3 & W1 & S & W3 & W4 & W5); [split; [reflexivity|exact Hn]|].
  eexists. split; [cbn [LayItems.lstep]; rewrite (unlined_space ls) by (rewrite Hs; exact Logic.I); rewrite W1; reflexivity|]. rewrite Hs. cbn [then_ ln lcol].
  destruct H as [h1 h2 h3 h4 h5 h6], S as [m1 m2 m3 m4 m5 m6]. split; [|split; [reflexivity|]; split; [exact W3|]; unfold pend; cbn [lsoon then_]; rewrite m5, h5; auto].
  constructor; cbn [lv lli lsl lpop lsoon then_]; try congruence. eapply keyed_view; [..|exact W5]; reflexivity.
Qed.
Lemma room_sb (sb : bool) k n : k = (if sb then YSoon 1024 else YNo) -> (sb = true -> n <= 1024) -> room k n.
Proof. intros -> H. destruct sb; cbn [room]; auto. Qed.
Lemma kin_sb (sb : bool) k k' : k = (if sb then YSoon 1024 else YNo) -> kin k k' -> (k' = YNo <-> sb = false).
Proof. unfold kin. intros ->. destruct sb; intuition congruence. Qed.
Lemma At_live fs li ls k b : At fs li ls k -> lsoon ls = false -> k <> YNo -> room k b -> exists n, b <= n /\ At fs li ls (YLive n).
Proof. intros H Hs Hk Hr. destruct k as [|n|n]; [congruence| |exists n; auto]. exfalso. destruct (at_key _ _ _ _ H) as (_ & E & _). congruence. Qed.

Lemma W_node e (b1 b2 mp sb : bool) an tds fs li k x y w i c ls a rs (Q : post) :
  fine tds (e_data e) -> EmitGrammar.is_node (e_data e) = true -> an_ok (em_unicode c) tds (e_data e) an -> (forall td, In td tds -> valid_handle (td_handle td)) ->
  em_canonical c = false -> (2 <= em_best_indent c <= 9)%Z -> break_chars (em_line_break c) = lf -> em_states c = a :: rs ->
  em_flow_level c = Z.of_N (flows fs) -> (-1 <= em_indent c)%Z -> (flows fs = 0 -> LayItems.top li = em_indent c) ->
  NP w fs li ls k -> k = (if sb then YSoon 1024 else YNo) -> (sb = true -> key_fits (e_data e) an c = true) -> (w = true -> flows fs = 0 -> sb = false -> ~ blank_scalar (e_data e)) ->
  (forall tk act c' ls', lnode tds (e_data e) tk act -> keep c c' -> node_out (e_data e) tk act a rs fs li sb mp x w i ls c' ls' -> Q tk c' ls') ->
  W (emit_node e b1 b2 mp sb an) (mv x y w i c) ls Q.
Proof.
  intros (([Hvn Hvt] & _ & Hfl) & Hval & Htf & Hsty) Hn Han Hh Hc Hb Hl Hs Hfv Hin Htop Hnp Hk Hfit Hblank Hq. unfold emit_node. apply W_seq, W_set; [inner|keeps_core|]. cbn [app].
  set (c0 := set_em_simple_key_context sb (set_em_mapping_context mp (set_em_sequence_context b2 (set_em_root_context b1 c)))).
  change (W (match e_data e with
    | EvAlias _ => emit_alias an | EvScalar _ _ _ pi qi st => emit_scalar pi qi st an | EvSequenceStart _ _ _ st => emit_sequence_start (e_data e) st an
    | EvMappingStart _ _ _ st => emit_mapping_start (e_data e) st an | _ => emitter_error "expected SCALAR, SEQUENCE-START, MAPPING-START, or ALIAS" end) (mv x y w i c0) ls (fun t' c2 ls2 => Q t' c2 ls2)).
  assert (K0 : keep c c0) by (constructor; reflexivity). assert (Hs0 : em_states c0 = a :: rs) by exact Hs.
  assert (Hk0 : em_simple_key_context c0 = sb) by reflexivity. assert (Hm0 : em_mapping_context c0 = mp) by reflexivity. clearbody c0.
  rewrite kept_written in Hvt, Htf.
  destruct (e_data e) as [en| |vd tdl im|im|a0|a0 t v pi qi sty|a0 t im sty| |a0 t im sty|] eqn:Ee; try discriminate Hn; cbn [an_ok anchor_in CanonStep.value_ok style_in key_fits] in *.
  - (* alias *)
    unfold emit_alias. unfold alen in Hfit. rewrite Han in Hfit |- *. apply W_seq.
    eapply (W_name lf a0 true fs li k 10); [exact Hvn|exact Hnp|apply (room_sb sb); [exact Hk|lia]|]. intros x' ls' k' A R K A1 A2 A3.
    apply W_get; [reflexivity|]. change (em_simple_key_context (mv x' y false false c0)) with (em_simple_key_context c0). rewrite Hk0. pose proof (kin_sb _ _ _ Hk K) as Ky. destruct sb; cbn [when].
    + destruct (At_live _ _ _ _ 10 A (at_soon _ _ _ _ A)) as (n & Hn' & A'); [rewrite Ky; discriminate|exact R|].
      destruct (At_space_key _ _ _ _ A' ltac:(lia) A2) as (ls2 & E & B & B1 & B2 & B3 & B4).
      apply W_seq. eapply (W_runs _ _ _ _ [ISp] (mv (x' + 1) y false false c0)); [exact (r_put c0 32 x' y false false)|apply CanonEmit.mv_core|constructor; [exact Logic.I|constructor]|cbn [LayScan.lrun]; rewrite E; reflexivity|rewrite B3, B4; reflexivity|].
      cbn [app]. eapply W_pop; [exact Hs0|]. cbn [app]. eapply (Hq _ NLeaf); [constructor|destruct K0; constructor; assumption|].
      split; [reflexivity|]. split; [reflexivity|]. left. split; [reflexivity|]. split; [reflexivity|]. exists (n - 1). split; [lia|]. split; [exact B|]. split; [unfold opens_gate; rewrite B1; reflexivity|].
      intros Hv0. rewrite B2. assert (lv ls' = 0) by (rewrite (at_lv _ _ _ _ A), <- (at_lv _ _ _ _ B); exact Hv0). specialize (A3 H). lia.
    + apply W_seq, W_ret. cbn [app]. eapply W_pop; [exact Hs0|]. cbn [app]. eapply (Hq _ NLeaf); [constructor|destruct K0; constructor; assumption|].
      split; [reflexivity|]. split; [reflexivity|]. left. split; [reflexivity|]. split; [reflexivity|]. rewrite (proj2 Ky eq_refl) in A. split; [exact A|unfold opens_gate; rewrite A2; reflexivity].
  - (* scalar *)
    destruct Han as (Ha & Ht & Hsa). unfold emit_scalar. rewrite Hsa, Ha.
    set (kt := kept_tag t (pi || qi)) in *. set (no := match an_tag an with None => true | Some _ => false end).
    assert (Hno : no = true <-> kt = None). { clear - Ht. subst no. destruct kt, (an_tag an) as [[? ?]|]; try contradiction Ht; split; congruence. }
    set (u := em_unicode c) in *. set (sty' := choose_style c0 pi sty (analyze_scalar u v) no).
    assert (Hc0 : em_canonical c0 = false) by (rewrite (k_can _ _ K0); exact Hc).
    destruct (style_choice c0 u pi sty v no Hc0) as (S1 & S2 & SL & SF & S3). fold sty' in S1, S2, SL, SF, S3.
    assert (Hflow : negb (em_flow_level c0 =? 0)%Z = negb (flows fs =? 0)) by (rewrite (k_fl _ _ K0), Hfv; f_equal; lia). rewrite Hflow, Hk0 in S1, SL.
    set (bang := no && negb qi && negb (style_eqb sty' SPlain)).
    apply (W_val lf _ (sty', if bang then Some (lit "!", []) else an_tag an)).
    { intros s Es. unfold select_scalar_style. rewrite (EmitSession.b_get _ s). cbv zeta. fold no.
      assert (Ec : choose_style s pi sty (analyze_scalar u v) no = sty').
      { unfold sty', choose_style. change (em_canonical s) with (em_canonical (core s)). change (em_simple_key_context s) with (em_simple_key_context (core s)). change (em_flow_level s) with (em_flow_level (core s)). rewrite Es. reflexivity. }
      rewrite Ec. replace (no && negb pi && negb qi) with false; [reflexivity|]. clear - Hno Hfl. clearbody no. destruct no; [|reflexivity]. assert (En : kt = None) by (apply Hno; reflexivity). subst kt. unfold kept_tag in En. destruct pi, qi; try reflexivity. cbn [orb] in En. subst t. destruct Hfl; discriminate. }
    assert (Hsum : sb = true -> alen an + tag_len (an_tag an) + str_len v <= 128) by (intros E; specialize (Hfit E); apply andb_true_iff in Hfit; lia).
    assert (Hal : alen an = opt_len a0) by (unfold alen; rewrite Ha; destruct a0; reflexivity).
    set (S := 4 * str_len v + 3). set (T := 3 * tag_len (an_tag an) + 5).
    apply W_seq. apply (W_anchor_opt lf a0 fs li k (T + S + 10)); [exact Hvn|exact Hnp|apply (room_sb sb); [exact Hk|intros E; specialize (Hsum E); subst T S; unfold str, char in *; lia]|].
    intros x1 w1 i1 ls1 k1 P1. cbv beta.
    set (t' := if bang then Some (lit "!") else kt).
    assert (TT : forall Q' : post, (forall tk x' w' i' ls' k', tag_toks tds t' tk -> props fs li k1 (S + 10) x1 w1 i1 ls1 tk x' w' i' ls' k' -> Q' tk (mv x' y w' i' c0) ls') ->
      W (process_tag (if bang then Some (lit "!", []) else an_tag an)) (mv x1 y w1 i1 c0) ls1 Q').
    { intros Q' HQ'. subst t'. destruct bang.
      - eapply (W_bang lf tds fs li k1 (S + 10)); [exact (pr_np _ _ _ _ _ _ _ _ _ _ _ _ _ _ P1)|eapply room_le; [|exact (pr_room _ _ _ _ _ _ _ _ _ _ _ _ _ _ P1)]; subst T; lia|exact HQ'].
      - eapply (W_tag_opt lf tds kt (an_tag an) fs li k1 (S + 10)); [exact Ht|exact Hvt|exact Htf|exact Hh|exact (pr_np _ _ _ _ _ _ _ _ _ _ _ _ _ _ P1)|eapply room_le; [|exact (pr_room _ _ _ _ _ _ _ _ _ _ _ _ _ _ P1)]; subst T; lia|exact HQ']. }
    apply W_seq, TT. clear TT. intros tk x2 w2 i2 ls2 k2 Htk P2'. pose proof (props_trans _ _ _ _ _ _ _ _ _ _ _ _ _ _ _ _ _ _ _ _ _ P1 P2') as P2. clear P1 P2' x1 w1 i1 ls1 k1. cbv beta.
    assert (Hct : scalar_tag t pi qi t' sty').
    { split.
      - fold kt. subst t'. destruct bang eqn:Eb; [right|left; reflexivity]. subst bang. apply andb_true_iff in Eb. destruct Eb as [Eb E3]. apply andb_true_iff in Eb. destruct Eb as [E1 E2]. split; [apply Hno, E1|]. split; [reflexivity|]. split; [destruct qi; [discriminate|reflexivity]|].
        intros E. rewrite E in E3. discriminate.
      - intros E. subst t'. destruct bang eqn:Eb; [discriminate|]. assert (En : no = true) by (apply Hno; exact E). destruct (style_eqb sty' SPlain) eqn:Ep.
        + apply S1; [|exact En]. destruct S3 as [S3|[S3|[S3|[S3|S3]]]]; [exact S3|rewrite S3 in Ep; discriminate..].
        + subst bang. rewrite En in Eb. cbn [andb negb] in Eb. destruct qi; [reflexivity|discriminate]. }
    apply W_seq, W_increase. cbv beta. cbn [app]. set (j := new_indent true false (em_indent c0) (em_best_indent c0)).
    assert (Hj : (2 <= j)%Z /\ (em_indent c < j)%Z).
    { subst j. unfold new_indent. rewrite (k_in _ _ K0), (k_best _ _ K0). clear - Hb Hin. destruct (em_indent c <? 0)%Z eqn:E; lia. }
    apply W_seq. set (c1 := set_em_indent j _). rewrite StyleFacts.analysis_value.
    destruct P2 as [P1 P3 P4 P5]. pose proof (kin_sb _ _ _ Hk P4) as Ky.
    assert (Dec : sty' = SPlain /\ v = [] \/ Spec_Styles.plain_text u (negb (flows fs =? 0)) v /\ v <> [] /\ sty' = SPlain \/ sty' = SSingle \/ sty' = SDouble \/ sty' = SLiteral \/ sty' = SFolded).
    { destruct S3 as [S3|S3]; [|auto]. destruct v; [left; auto|right; left]. split; [apply S1, S3|]. split; [discriminate|exact S3]. }
    destruct Dec as [[Ep Ev]|Dec].
    + (* empty *)
      destruct (S1 Ep) as (_ & S4 & S5 & S6). destruct (S4 Ev) as [S7 S8]. assert (F0 : flows fs = 0) by (destruct (flows fs =? 0) eqn:E; [lia|discriminate]).
      rewrite Ev, Ep. eapply (W_still lf _ _ (mv x2 y false false c1)).
      { unfold process_scalar. apply runs_get; [reflexivity|]. cbv zeta. unfold write_plain_scalar. apply runs_get; [reflexivity|].
        change (em_flow_level (mv x2 y w2 i2 c1)) with (em_flow_level c0). rewrite (k_fl _ _ K0), Hfv, F0. cbn [is_empty negb orb Z.of_N Z.eqb]. rewrite andb_false_r. cbn [when].
        refine (runs_seq _ _ _ _ _ _ _ _ (runs_ret _ _) _). refine (runs_seq _ _ _ _ _ _ _ _ (runs_ret _ _) _). apply r_set_ws. }
      { keeps_core. }
      apply W_seq. eapply W_pop_indent; [reflexivity|]. cbv beta. eapply W_pop; [exact Hs0|]. cbv beta. rewrite !app_nil_r.
      eapply (Hq _ NEmpty); [rewrite Ev; econstructor; [rewrite <- Ep; exact Hct|exact Htk]|destruct K0; constructor; assumption|].
      split; [reflexivity|]. split; [reflexivity|]. split; [reflexivity|]. split; [reflexivity|]. split; [exact S8|]. split; [exact F0|].
      assert (Hnb : anchor_toks a0 ++ tk = [] -> w = true -> False).
      { intros E Hw. apply app_eq_nil in E. destruct E as [E1 E2]. apply (Hblank Hw F0 S8). rewrite Ev. cbn [blank_scalar]. destruct a0; [discriminate E1|].
        assert (t' = None) as Et by (rewrite E2 in Htk; inversion Htk; reflexivity).
        assert (En : kt = None) by (subst t'; destruct bang; [discriminate|exact Et]). split; [exact En|]. split; [apply S5, Hno, En|exact S6]. }
      destruct P5 as [(E1 & E2 & E3 & E4 & E5)|(E1 & E2 & E3)].
      * destruct w; [exfalso; apply Hnb; auto|]. rewrite E3, (proj2 Ky S8) in P1. split; [exact P1|discriminate].
      * rewrite E2, (proj2 Ky S8) in P1. split; [exact P1|auto].
    + (* a text *)
      assert (Dec' : (sty' = SLiteral \/ sty' = SFolded) \/ (Spec_Styles.plain_text u (negb (flows fs =? 0)) v /\ v <> [] /\ sty' = SPlain \/ sty' = SSingle \/ sty' = SDouble)) by (destruct Dec as [D|[D|[D|D]]]; [right; left; exact D|right; right; left; exact D|right; right; right; exact D|left; exact D]).
      clear Dec. destruct Dec' as [El|Dec].
      { destruct (SL El) as (L1 & L2 & L3 & L4). assert (F0 : flows fs = 0) by (destruct (flows fs =? 0) eqn:E; [lia|discriminate]). rewrite (proj2 Ky L4) in P1.
        assert (Elt : exists lt : bool, sty' = if lt then SLiteral else SFolded) by (destruct El as [D|D]; [exists true|exists false]; exact D). destruct Elt as (lt & Elt). rewrite Elt.
        assert (Hfw : lt = false -> Spec_Folded.always_folds_well v) by (intros E; rewrite E in Elt; rewrite (SF Elt) in Hsty; exact Hsty).
        eapply (W_block lf Hlf u lt v fs li); [exact (Z.le_trans 1 2 j ltac:(lia) (proj1 Hj))|change (em_best_indent c1) with (em_best_indent c0); rewrite (k_best _ _ K0); lia|change (em_line_break c1) with (em_line_break c0); rewrite (k_lb _ _ K0); exact Hl
          |exact L2|exact L1|exact Hfw|apply (block_allowed u), L1|exact F0| |exact P1|].
        - change (em_indent c1) with j. change (em_best_indent c1) with (em_best_indent c0). rewrite (k_best _ _ K0). rewrite (Htop F0). unfold lit_col. subst j. unfold new_indent in *. rewrite (k_in _ _ K0), (k_best _ _ K0) in *. clear - Hb Hin Hj.
          destruct (RoundLiteral.hinted v); destruct (em_indent c <? 0)%Z eqn:E, (0 <=? em_indent c)%Z eqn:E'; lia.
        - intros x3 y3 w3 i3 k3 ls3 B3 A3. cbv beta. apply W_seq. eapply W_pop_indent; [reflexivity|]. cbv beta. eapply W_pop; [exact Hs0|]. cbv beta. rewrite !app_nil_r.
          eapply (Hq _ NLeaf); [econstructor; [rewrite <- Elt; exact Hct|exact Htk]|destruct K0; constructor; assumption|].
          split; [reflexivity|]. split; [reflexivity|]. right. split; [exact L4|]. split; [exact F0|]. split; [exact B3|exact A3]. }
      assert (Htx : style_text u (negb (flows fs =? 0)) sty' v) by (destruct Dec as [(D1 & D2 & ->)|[D|D]]; [split; assumption|rewrite D in S2 |- *; apply S2; reflexivity|rewrite D; exact Logic.I]).
      eapply (W_text lf u sty' v fs li k2 10); [exact (Z.le_trans 1 2 j ltac:(lia) (proj1 Hj))|change (em_line_break c1) with (em_line_break c0); rewrite (k_lb _ _ K0); exact Hl|exact Htx|exact Hval| | | |exact P1|eapply room_le; [|exact P3]; subst S; unfold str, char in *; lia|].
      * change (em_indent c1) with j. unfold colk. clear - Hj Htop Hin. destruct (flows fs =? 0) eqn:E; cbn [negb]; [specialize (Htop ltac:(lia))|]; lia.
      * change (em_simple_key_context c1) with (em_simple_key_context c0). rewrite Hk0. clear - Ky. destruct sb, k2; try reflexivity; destruct Ky as [K1 K2]; [discriminate (K1 eq_refl)|discriminate (K2 eq_refl)..].
      * change (em_simple_key_context c1) with (em_simple_key_context c0). rewrite Hk0. intros E. specialize (Hfit E). apply andb_true_iff in Hfit. destruct Hfit as [F1 _]. apply StyleFacts.analysis_multiline with (u := u). apply negb_true_iff in F1. exact F1.
      * intros x3 y3 ls3 k3 A R3 K3 A1 A2 A3. cbv beta. apply W_seq. eapply W_pop_indent; [reflexivity|]. cbv beta. eapply W_pop; [exact Hs0|]. cbv beta. rewrite !app_nil_r.
        eapply (Hq _ NLeaf); [econstructor; [exact Hct|exact Htk]|destruct K0; constructor; assumption|].
        split; [reflexivity|]. split; [reflexivity|]. left. split; [reflexivity|]. split; [reflexivity|]. pose proof (kin_sb _ _ _ Hk (kin_trans _ _ _ P4 K3)) as Ky3. destruct sb.
        -- destruct (At_live _ _ _ _ 10 A (at_soon _ _ _ _ A)) as (n & Hn' & A'); [rewrite Ky3; discriminate|exact R3|]. exists n. split; [lia|]. split; [exact A'|].
           split; [unfold opens_gate; destruct A2 as [-> | ->]; reflexivity|]. apply A3. rewrite Ky. discriminate.
        -- rewrite (proj2 Ky3 eq_refl) in A. split; [exact A|unfold opens_gate; destruct A2 as [-> | ->]; reflexivity].
  - (* sequence *)
    destruct Han as (Ha & Ht). unfold emit_sequence_start. rewrite Ha.
    assert (Hal : alen an = opt_len a0) by (unfold alen; rewrite Ha; destruct a0; reflexivity).
    assert (Hsum : sb = true -> alen an + tag_len (an_tag an) <= 128) by (intros E; specialize (Hfit E); apply andb_true_iff in Hfit; lia).
    set (T := 3 * tag_len (an_tag an) + 5).
    apply W_seq. apply (W_anchor_opt lf a0 fs li k (T + 10)); [exact Hvn|exact Hnp|apply (room_sb sb); [exact Hk|intros E; specialize (Hsum E); subst T; unfold str, char in *; lia]|].
    intros x1 w1 i1 ls1 k1 P1. cbv beta.
    apply W_seq. eapply (W_tag_opt lf tds (kept_tag t im) (an_tag an) fs li k1 10); [exact Ht|exact Hvt|exact Htf|exact Hh|exact (pr_np _ _ _ _ _ _ _ _ _ _ _ _ _ _ P1)|eapply room_le; [|exact (pr_room _ _ _ _ _ _ _ _ _ _ _ _ _ _ P1)]; subst T; lia|].
    intros tk x2 w2 i2 ls2 k2 Htk P2'. pose proof (props_trans _ _ _ _ _ _ _ _ _ _ _ _ _ _ _ _ _ _ _ _ _ P1 P2') as P2. clear P1 P2' x1 w1 i1 ls1 k1. cbv beta.
    destruct P2 as [P1 P3 P4 P5]. pose proof (kin_sb _ _ _ Hk P4) as Ky.
    apply W_get; [reflexivity|]. change (em_canonical (mv x2 y w2 i2 c0)) with (em_canonical c0). change (em_flow_level (mv x2 y w2 i2 c0)) with (em_flow_level c0).
    rewrite (k_can _ _ K0), Hc, (k_fl _ _ K0), Hfv, orb_false_r.
    set (em := check_empty_sequence _ _). assert (Eem : em = end_head (NSeq SkFlow) (em_events c)) by (subst em; cbn [check_empty_sequence end_head]; change (em_events (mv x2 y w2 i2 c0)) with (em_events c0); rewrite (k_ev _ _ K0); destruct (em_events c) as [|q0 q1]; [reflexivity|]; destruct (e_data q0); reflexivity).
    assert (Hi2 : i2 = true -> i = true /\ x2 = x /\ w2 = w /\ ls2 = ls) by (intros E; destruct P5 as [(E1 & E2 & E3 & E4 & E5)|(E1 & E2 & E3)]; [|congruence]; repeat split; congruence).
    assert (Hw2 : w2 = true -> w = true /\ i2 = i) by (intros E; destruct P5 as [(E1 & E2 & E3 & E4 & E5)|(E1 & E2 & E3)]; [|congruence]; repeat split; congruence).
    apply W_goto. rewrite !app_nil_r. destruct (negb (Z.of_N (flows fs) =? 0)%Z || is_flow_seq sty || em) eqn:Ef.
    + eapply (Hq _ (NSeq SkFlow)); [constructor; exact Htk|destruct K0; constructor; assumption|].
      split; [reflexivity|]. split; [exact Hs0|]. split; [exact Hm0|]. split; [exists k2; split; [exact P1|]; split; [exact Ky|exact P3]|]. split; [exact Hi2|]. split; [exact Hw2|]. split; [discriminate|]. split; [|exact Logic.I].
      intros E. specialize (Hfit E). apply andb_true_iff in Hfit. destruct Hfit as [F1 _]. change (em_events (mv x2 y w2 i2 (set_em_state EFlowSequenceFirstItem c0))) with (em_events c0). rewrite (k_ev _ _ K0). cbn [check_empty_sequence end_head] in F1 |- *. destruct (em_events c) as [|q0 q1]; [discriminate|]. destruct (e_data q0); try discriminate; reflexivity.
    + apply orb_false_iff in Ef. destruct Ef as [Ef E3]. apply orb_false_iff in Ef. destruct Ef as [E1 E2]. rewrite E3 in Eem. assert (F0 : flows fs = 0) by lia.
      assert (Esb : sb = false). { destruct sb; [|reflexivity]. exfalso. specialize (Hfit eq_refl). apply andb_true_iff in Hfit. destruct Hfit as [F1 _]. cbn [check_empty_sequence end_head] in F1, Eem. destruct (em_events c) as [|q0 q1]; [discriminate|]. destruct (e_data q0); discriminate. }
      eapply (Hq _ (NSeq (if mp && negb i2 then SkInd else SkBlock))); [constructor; exact Htk|destruct K0; constructor; assumption|].
      assert (R : forall act, act = NSeq (if mp && negb i2 then SkInd else SkBlock) -> end_head act (em_events c) = false) by (intros act ->; symmetry; exact Eem).
      destruct (mp && negb i2) eqn:Emi; (split; [reflexivity|]; split; [exact Hs0|]; split; [exact Hm0|]; split; [exists k2; split; [exact P1|]; split; [exact Ky|exact P3]|]; split; [exact Hi2|]; split; [exact Hw2|];
        split; [intros _; split; [exact F0|]; split; [exact Esb|]; change (em_events (mv x2 y w2 i2 (set_em_state EBlockSequenceFirstItem c0))) with (em_events c0); rewrite (k_ev _ _ K0); apply R; reflexivity|]; split; [congruence|]).
      * apply andb_true_iff in Emi. destruct Emi as [E4 E5]. split; [exact E4|]. destruct i2; [discriminate|reflexivity].
      * exact Emi.
  - (* mapping *)
    destruct Han as (Ha & Ht). unfold emit_mapping_start. rewrite Ha.
    assert (Hal : alen an = opt_len a0) by (unfold alen; rewrite Ha; destruct a0; reflexivity).
    assert (Hsum : sb = true -> alen an + tag_len (an_tag an) <= 128) by (intros E; specialize (Hfit E); apply andb_true_iff in Hfit; lia).
    set (T := 3 * tag_len (an_tag an) + 5).
    apply W_seq. apply (W_anchor_opt lf a0 fs li k (T + 10)); [exact Hvn|exact Hnp|apply (room_sb sb); [exact Hk|intros E; specialize (Hsum E); subst T; unfold str, char in *; lia]|].
    intros x1 w1 i1 ls1 k1 P1. cbv beta.
    apply W_seq. eapply (W_tag_opt lf tds (kept_tag t im) (an_tag an) fs li k1 10); [exact Ht|exact Hvt|exact Htf|exact Hh|exact (pr_np _ _ _ _ _ _ _ _ _ _ _ _ _ _ P1)|eapply room_le; [|exact (pr_room _ _ _ _ _ _ _ _ _ _ _ _ _ _ P1)]; subst T; lia|].
    intros tk x2 w2 i2 ls2 k2 Htk P2'. pose proof (props_trans _ _ _ _ _ _ _ _ _ _ _ _ _ _ _ _ _ _ _ _ _ P1 P2') as P2. clear P1 P2' x1 w1 i1 ls1 k1. cbv beta.
    destruct P2 as [P1 P3 P4 P5]. pose proof (kin_sb _ _ _ Hk P4) as Ky.
    apply W_get; [reflexivity|]. change (em_canonical (mv x2 y w2 i2 c0)) with (em_canonical c0). change (em_flow_level (mv x2 y w2 i2 c0)) with (em_flow_level c0).
    rewrite (k_can _ _ K0), Hc, (k_fl _ _ K0), Hfv, orb_false_r.
    set (em := check_empty_mapping _ _). assert (Eem : em = end_head (NMap false) (em_events c)) by (subst em; cbn [check_empty_mapping end_head]; change (em_events (mv x2 y w2 i2 c0)) with (em_events c0); rewrite (k_ev _ _ K0); destruct (em_events c) as [|q0 q1]; [reflexivity|]; destruct (e_data q0); reflexivity).
    assert (Hi2 : i2 = true -> i = true /\ x2 = x /\ w2 = w /\ ls2 = ls) by (intros E; destruct P5 as [(E1 & E2 & E3 & E4 & E5)|(E1 & E2 & E3)]; [|congruence]; repeat split; congruence).
    assert (Hw2 : w2 = true -> w = true /\ i2 = i) by (intros E; destruct P5 as [(E1 & E2 & E3 & E4 & E5)|(E1 & E2 & E3)]; [|congruence]; repeat split; congruence).
    apply W_goto. rewrite !app_nil_r. destruct (negb (Z.of_N (flows fs) =? 0)%Z || is_flow_map sty || em) eqn:Ef.
    + eapply (Hq _ (NMap false)); [constructor; exact Htk|destruct K0; constructor; assumption|].
      split; [reflexivity|]. split; [exact Hs0|]. split; [exact Hm0|]. split; [exists k2; split; [exact P1|]; split; [exact Ky|exact P3]|]. split; [exact Hi2|]. split; [exact Hw2|]. split; [discriminate|]. split; [|exact Logic.I].
      intros E. specialize (Hfit E). apply andb_true_iff in Hfit. destruct Hfit as [F1 _]. change (em_events (mv x2 y w2 i2 (set_em_state EFlowMappingFirstKey c0))) with (em_events c0). rewrite (k_ev _ _ K0). cbn [check_empty_mapping end_head] in F1 |- *. destruct (em_events c) as [|q0 q1]; [discriminate|]. destruct (e_data q0); try discriminate; reflexivity.
    + apply orb_false_iff in Ef. destruct Ef as [Ef E3]. apply orb_false_iff in Ef. destruct Ef as [E1 E2]. rewrite E3 in Eem. assert (F0 : flows fs = 0) by lia.
      assert (Esb : sb = false). { destruct sb; [|reflexivity]. exfalso. specialize (Hfit eq_refl). apply andb_true_iff in Hfit. destruct Hfit as [F1 _]. cbn [check_empty_mapping end_head] in F1, Eem. destruct (em_events c) as [|q0 q1]; [discriminate|]. destruct (e_data q0); discriminate. }
      eapply (Hq _ (NMap true)); [constructor; exact Htk|destruct K0; constructor; assumption|].
      split; [reflexivity|]; split; [exact Hs0|]; split; [exact Hm0|]; split; [exists k2; split; [exact P1|]; split; [exact Ky|exact P3]|]; split; [exact Hi2|]; split; [exact Hw2|].
      split; [intros _; split; [exact F0|]; split; [exact Esb|]; change (em_events (mv x2 y w2 i2 (set_em_state EBlockMappingFirstKey c0))) with (em_events c0); rewrite (k_ev _ _ K0); symmetry; exact Eem|]. split; [congruence|exact Logic.I].
Qed.
End lay.
