(** LayStep.v -- one event in block or flow layout. *)
From Coq Require Import Lia ZifyBool ZifyNat ZifyN Bool.
From Verif Require Import Base Utf Chars State Reader Scanner Wp ScanFacts RoundScan RoundPlain EState Emitter Document Api EmitText EmitScalar EmitQuoted Spec_Events EventFacts Spec_EmitNames EmitGrammar CanonLex CanonBody LayItems LayScan Spec_Layout LayToks LayKeys LayEmit LayWrite LayNode.
From Verif Require CanonEmit CanonStep Spec_Lexical.
Import Spec_Lexical (breaks_line).
Open Scope N_scope.

(** ** The invariant *)
Definition rel (sb : bool) (fs : list lframe) : list lframe := match fs with LVal b :: r => if sb then LKey b :: r else fs | _ => fs end.
Definition st_of (f : lframe) (first sb : bool) : estate :=
  match f with
  | LRoot _ => EDocumentContent | LDone => EDocumentEnd
  | LSeq SkFlow => if first then EFlowSequenceFirstItem else EFlowSequenceItem
  | LSeq _ => if first then EBlockSequenceFirstItem else EBlockSequenceItem
  | LKey false => if first then EFlowMappingFirstKey else EFlowMappingKey
  | LKey true => if first then EBlockMappingFirstKey else EBlockMappingKey
  | LVal false => if sb then EFlowMappingSimpleValue else EFlowMappingValue
  | LVal true => if sb then EBlockMappingSimpleValue else EBlockMappingValue
  end.
Definition sts (fs : list lframe) (sb : bool) : list estate := match fs with f :: r => st_of f false sb :: map (fun f => st_of f false false) r | [] => [] end.
Definition inner_root (f : lframe) : Prop := match f with LRoot _ => False | _ => True end.
(** The indentation of the emitter and the columns of the block collections. *)
Inductive ind_ok : list lframe -> Z -> list Z -> list N -> Prop :=
| IO_root f : match f with LRoot _ | LDone => True | _ => False end -> ind_ok [f] (-1)%Z [] []
| IO_block f p r i j l li : match f with LSeq SkBlock | LKey true | LVal true => True | _ => False end -> blk p = true -> inner_root p -> (j < i <= j + 10)%Z -> ind_ok (p :: r) j l li -> ind_ok (f :: p :: r) i (j :: l) (Z.to_N i :: li)
| IO_ind p r i l li : p = LKey true \/ p = LVal true -> ind_ok (p :: r) i l li -> ind_ok (LSeq SkInd :: p :: r) i (i :: l) li
| IO_flow f p r i j l li : blk f = false -> inner_root p -> (j < i <= j + 10)%Z -> (2 <= i)%Z -> ind_ok (p :: r) j l li -> ind_ok (f :: p :: r) i (j :: l) li.
Lemma ind_low fs i l li : ind_ok fs i l li -> (-1 <= i <= 10 * Z.of_nat (length fs) - 11)%Z.
Proof. induction 1; cbn [length] in *; lia. Qed.
Lemma ind_top fs i l li : ind_ok fs i l li -> match fs with f :: _ => if blk f then LayItems.top li = i else True | [] => False end.
Proof.
  induction 1 as [f Hf|f p r i j l li Hf Hp Hr Hi H IH|p r i l li Hp H IH|f p r i j l li Hf Hr Hi H2 H IH]; cbn [LayItems.top].
  - destruct f; try contradiction; reflexivity.
  - apply ind_low in H. rewrite Hp in IH. destruct (blk f); [|exact Logic.I]. lia.
  - destruct Hp as [-> | ->]; exact IH.
  - rewrite Hf. exact Logic.I.
Qed.
Lemma ind_next f r i l li : ind_ok (f :: r) i l li -> ind_ok (next_frame f :: r) i l li.
Proof.
  intros H. inversion H; subst.
  - destruct f; try contradiction; constructor; exact Logic.I.
  - constructor; try assumption. destruct f as [| |[]|[]|[]]; try contradiction; exact Logic.I.
  - constructor; assumption.
  - econstructor; try eassumption. destruct f as [| |[]|[]|[]]; try discriminate; reflexivity.
Qed.
Lemma ind_flow f p r i inds li : ind_ok (f :: p :: r) i inds li -> blk f = false -> exists j l, inds = j :: l /\ ind_ok (p :: r) j l li.
Proof. intros H Hf. inversion H; subst; [destruct f as [| |[]|[]|[]]; try discriminate; contradiction|discriminate|]. eexists _, _. split; [reflexivity|assumption]. Qed.
Lemma flows_rel sb fs : flows (rel sb fs) = flows fs. Proof. destruct fs as [|[| | | |[]] r], sb; reflexivity. Qed.
Lemma flows_zero f r : flows (f :: r) = 0 -> blk f = true. Proof. cbn [flows]. destruct (blk f); [reflexivity|lia]. Qed.
Lemma flows_next f r : flows (next_frame f :: r) = flows (f :: r). Proof. destruct f as [| |[]|[]|[]]; reflexivity. Qed.

Definition head_end (f : lframe) (q : list event) : bool :=
  match f, q with LSeq _, n :: _ => match e_data n with EvSequenceEnd => true | _ => false end | LKey _, n :: _ => match e_data n with EvMappingEnd => true | _ => false end | _, _ => false end.
(** Just after the start of a collection. *)
Record DF (f : lframe) (r : list lframe) (sb : bool) (li : list N) (q : list event) (c : est) (ls : lstate) : Prop := Df {
  df_np : exists k, NP (em_whitespace c) (rel sb r) li ls k /\ (k = YNo <-> sb = false) /\ room k 10;
  df_line : flows r = 0 -> sb = false -> em_indention c = true -> lal ls = true /\ em_column c = (em_indent c + 1)%Z /\ Z.of_N (lcol ls) = em_column c /\ em_whitespace c = (em_indent c <? 0)%Z;
  df_ws : flows r = 0 -> sb = false -> em_whitespace c = true -> em_indention c = true;
  df_in : match r with p :: _ => inner_root p | [] => False end;
  df_sb : sb = true -> exists b r', r = LVal b :: r';
  df_q : q <> [] /\ (blk f = true -> head_end f q = false /\ flows r = 0 /\ sb = false) /\ (sb = true -> head_end f q = true);
  df_sk : match f with LSeq SkBlock => em_mapping_context c && negb (em_indention c) = false | LSeq SkInd => em_mapping_context c = true /\ em_indention c = false /\ exists p r', r = p :: r' /\ (p = LKey true \/ p = LVal true) | LSeq SkFlow | LKey _ => True | _ => False end }.
(** After a node of a collection. *)
Definition DNn (f : lframe) (r : list lframe) (sb : bool) (li : list N) (w i : bool) (x : Z) (ls : lstate) : Prop :=
  if sb then w = false /\ i = false /\ match f with LVal b => exists n, 1 <= n /\ At (LKey b :: r) li ls (YLive n) /\ opens_gate ls GVal = true /\ (lv ls = 0 -> (LayItems.top li <= Z.of_N (lcol ls))%Z) | _ => False end
  else if blk f then Bk li ls /\ after w i x ls else w = false /\ i = false /\ At (f :: r) li ls YNo /\ opens_gate ls GSep = true.
Definition DN (f : lframe) (r : list lframe) (sb : bool) (li : list N) (c : est) (ls : lstate) : Prop :=
  match f with
  | LRoot true => sb = false /\ r = [] /\ ls = ls0 /\ em_column c = 0%Z /\ em_whitespace c = true /\ em_indention c = true
  | LRoot false => sb = false /\ r = [] /\ NP false [LDone] [] ls YNo /\ em_whitespace c = false /\ em_indention c = false
  | _ => DNn f r sb li (em_whitespace c) (em_indention c) (em_column c) ls
  end.
Definition op (f : lframe) (r : list lframe) (first : bool) : list lframe := if first then r else f :: r.
Definition D (fs : list lframe) (first sb : bool) (q : list event) (c : est) (ls : lstate) : Prop :=
  match fs with
  | [] => False
  | f :: r => em_state c = st_of f first (negb first && sb) /\ em_states c = sts r (first && sb) /\ em_flow_level c = Z.of_N (flows (op f r first)) /\
      exists li, ind_ok (op f r first) (em_indent c) (em_indents c) li /\ if first then DF f r sb li q c ls else DN f r sb li c ls
  end.
Lemma sts_map r : sts r false = map (fun f => st_of f false false) r. Proof. destruct r; reflexivity. Qed.

Section lay.
Variable lf : str.
Hypothesis Hlf : lf_ok lf.
Notation lstep := (lstep lf).
Notation lrun := (lrun lf).
Notation texts := (texts lf).
Notation item_ok := (item_ok lf).
Notation itext := (itext lf).
Notation W := (W lf).

Lemma NP_Bk fs li ls : NP false fs li ls YNo -> flows fs = 0 -> Bk li ls /\ lpop ls = [] /\ settled (ln ls).
Proof.
  intros H Hf. pose proof (np_key _ _ _ _ _ H) as [K1 K2]. pose proof (np_pop _ _ _ _ _ H) as Hp.
  assert (P : lpop ls = []) by (destruct Hp as [Hp|[Hp _]]; [exact Hp|discriminate]). split; [|split; [exact P|exact (np_need _ _ _ _ _ H)]].
  constructor; [rewrite (np_lv _ _ _ _ _ H); exact Hf|rewrite <- (np_li _ _ _ _ _ H); unfold eli; rewrite K2; reflexivity| |rewrite P; constructor|split; assumption].
  pose proof (np_below _ _ _ _ _ H) as B. destruct fs as [|f r]; cbn [below] in B; [exact B|]. rewrite (flows_zero _ _ Hf) in B. exact B.
Qed.
Lemma At_Bk fs li ls : At fs li ls YNo -> flows fs = 0 -> Bk li ls.
Proof.
  intros H Hf. constructor; [rewrite (at_lv _ _ _ _ H); exact Hf|exact (at_li _ _ _ _ H)| |rewrite (at_pop _ _ _ _ H); constructor|exact (at_key _ _ _ _ H)].
  pose proof (at_below _ _ _ _ H) as B. destruct fs as [|f r]; cbn [below] in B; [exact B|]. rewrite (flows_zero _ _ Hf) in B. exact B.
Qed.
Lemma run_sp n : forall fs ls, keyed ls YNo -> below fs (lsl ls) -> ln ls = Free ->
  exists ls', lrun ls (repeat ISp n) = Some (ls', []) /\ same ls ls' /\ lcol ls' = lcol ls + N.of_nat n /\ keyed ls' YNo /\ below fs (lsl ls').
Proof.
  induction n as [|n IH]; intros fs ls Hk Hb Hn; cbn [repeat LayScan.lrun].
  - exists ls. split; [reflexivity|]. split; [constructor; reflexivity|]. split; [lia|auto].
  - destruct (walk_ok [32] ls YNo fs Hk Hb Logic.I) as (s3 & W1 & S & W3 & W4 & W5). cbn [LayItems.lstep]. rewrite (unlined_space ls) by (rewrite Hn; exact Logic.I). cbn [guard option_bind]. rewrite W1. cbn [option_bind]. rewrite Hn. cbn [spaced].
    destruct (IH fs (then_ (lal s3) Free s3)) as (ls' & E & S' & C & K & B); [eapply keyed_view; [..|exact W5]; reflexivity|exact W4|reflexivity|].
    rewrite E. exists ls'. split; [reflexivity|]. destruct S, S'. cbn [then_ lv lli lpop lal lsoon ln lcol] in *. split; [constructor; congruence|]. split; [rewrite C, W3; cbn; lia|auto].
Qed.
Lemma NP_start n w fs li ls : NP w fs li ls YNo -> flows fs = 0 -> lal ls = true -> (w = true <-> n = O) ->
  exists ls', lrun ls (repeat ISp n) = Some (ls', []) /\ Start li (lcol ls + N.of_nat n) ls' /\ pend ls = [] /\ pend ls' = [].
Proof.
  intros H Hf Hal Hn. pose proof (np_key _ _ _ _ _ H) as [K1 K2].
  assert (Hli : lli ls = li) by (rewrite <- (np_li _ _ _ _ _ H); unfold eli; rewrite K2; reflexivity).
  assert (Hlv : lv ls = 0) by (rewrite (np_lv _ _ _ _ _ H); exact Hf). pose proof (np_col _ _ _ _ _ H Hlv) as Hc. rewrite Hli in Hc.
  assert (Hb1 : forall sl, below fs sl -> exists s, sl = [s]) by (intros sl B; destruct fs as [|f r]; cbn [below] in B; [exact B|]; rewrite (flows_zero _ _ Hf) in B; exact B).
  pose proof (np_below _ _ _ _ _ H) as B. assert (Pd : pend ls = []) by (unfold pend; rewrite K2; reflexivity). destruct n as [|n].
  - assert (w = true) as -> by (apply Hn; reflexivity). exists ls. split; [reflexivity|]. split; [|auto]. rewrite N.add_0_r.
    constructor; [exact Hlv|exact Hli|exact (Hb1 _ B)| |split; assumption|exact Hal|reflexivity|exact (np_need _ _ _ _ _ H)|exact Hc].
    destruct (np_pop _ _ _ _ _ H) as [P|(_ & _ & P)]; [rewrite P; constructor|exact P].
  - assert (w = false) as -> by (destruct w; [discriminate (proj1 Hn eq_refl)|reflexivity]).
    destruct (walk_ok [32] ls YNo fs (conj K1 K2) B Logic.I) as (s3 & W1 & S & W3 & W4 & W5). cbn [repeat LayScan.lrun LayItems.lstep]. pose proof (np_need _ _ _ _ _ H) as Hnd. cbv iota in Hnd. rewrite (unlined_space ls (settled_un _ Hnd)). cbn [guard option_bind]. rewrite W1. cbn [option_bind].
    assert (En : spaced (ln ls) = Free) by (destruct (ln ls); try reflexivity; contradiction Hnd). rewrite En.
    destruct (run_sp n fs (then_ (lal s3) Free s3)) as (ls' & E & S' & C & K & B'); [eapply keyed_view; [..|exact W5]; reflexivity|exact W4|reflexivity|].
    rewrite E. exists ls'. split; [reflexivity|]. destruct S as [m1 m2 m3 m4 m5 m6], S' as [n1 n2 n3 n4 n5 n6]. cbn [then_ lv lli lpop lal lsoon ln lcol] in *.
    assert (Ec : lcol ls' = lcol ls + N.of_nat (Datatypes.S n)) by (rewrite C, W3, cadv_sp; lia).
    split; [|split; [exact Pd|unfold pend; rewrite n5, m5, K2; reflexivity]].
    assert (P : lpop ls' = []) by (rewrite n3, m3; destruct (np_pop _ _ _ _ _ H) as [P|[P _]]; [exact P|discriminate]).
    constructor; [congruence|congruence|exact (Hb1 _ B')|rewrite P; constructor|exact K|congruence|exact Ec|unfold opens_gate; rewrite n6; reflexivity|lia].
Qed.

Definition good (u : bool) (c : est) : Prop := em_canonical c = false /\ (2 <= em_best_indent c <= 9)%Z /\ break_chars (em_line_break c) = lf /\ em_unicode c = u.
Record stay (c c' : est) : Prop := Stay {
  s_can : em_canonical c' = em_canonical c; s_best : em_best_indent c' = em_best_indent c; s_lb : em_line_break c' = em_line_break c; s_un : em_unicode c' = em_unicode c;
  s_ev : em_events c' = em_events c; s_tds : em_tag_directives c' = em_tag_directives c }.
Lemma keep_stay c c' : keep c c' -> stay c c'. Proof. intros []. constructor; assumption. Qed.
Lemma stay_trans a b c : stay a b -> stay b c -> stay a c. Proof. intros [] []. constructor; congruence. Qed.
Lemma stay_refl c : stay c c. Proof. constructor; reflexivity. Qed.
Lemma good_stay u c c' : good u c -> stay c c' -> good u c'. Proof. intros (G1 & G2 & G3 & G4) [S1 S2 S3 S4 S5 S6]. split; [congruence|]. rewrite S2, S3, S4. auto. Qed.

Lemma li_pop li ls n li' : Bk li ls -> li = n :: li' -> (LayItems.top li' < Z.of_N n)%Z -> exists ls', lstep ls IPop = Some (ls', [TBlockEnd]) /\ Bk li' ls' /\ forall w i x, after w i x ls -> after w i x ls'.
Proof.
  intros [B1 B2 B3 B4 [B5 B6]] -> Hn. cbn [LayItems.lstep]. rewrite B1, B2, B5, B6. cbn. eexists. split; [reflexivity|]. split; [|intros w i x H; exact H]. constructor; cbn [lv lli lsl lpop lsoon]; auto; [|split; [exact B5|reflexivity]].
  cbn [LayItems.top] in B4. apply Forall_app. split; [eapply Forall_impl; [|exact B4]; cbv beta; intros; lia|constructor; [exact Hn|constructor]].
Qed.
Lemma pend_no ls : keyed ls YNo -> pend ls = []. Proof. intros [_ H]. unfold pend. rewrite H. reflexivity. Qed.
(** The next line of a block collection. *)
Lemma W_line u li x y w i c ls (Q : post) : good u c -> Bk li ls -> after w i x ls -> LayItems.top li = em_indent c -> (0 <= em_indent c)%Z ->
  (forall y' ls', Start li (N.of_nat (Z.to_nat (em_indent c))) ls' -> lsl ls' = [SOff] -> Q [] (mv (em_indent c) y' true true c) ls') -> W write_indent (mv x y w i c) ls Q.
Proof.
  intros G B Ha Ht H0 Hq. destruct Ha as [[-> Hm]|(-> & -> & -> & Hl & Hc & Hal & Hs)].
  - destruct (Bk_break lf Hlf (Z.to_nat (em_indent c)) li ls B Hm) as (ls' & R & St & So); [left; lia|].
    eapply (W_break lf c); [apply G|exact R|exact (pend_no _ (bk_key _ _ B))|exact (pend_no _ (st_key _ _ _ St))|]. intros y'. replace (Z.max (em_indent c) 0) with (em_indent c) by lia. apply Hq; assumption.
  - destruct (Bk_spaces lf (Z.to_nat (em_indent c)) li ls B Hl Hc Hal Hs) as (ls' & R & St & So); [lia|].
    eapply (W_here lf c 0 y true (Z.to_nat (em_indent c))); [exact H0|lia|reflexivity|exact R|exact (pend_no _ (bk_key _ _ B))|exact (pend_no _ (st_key _ _ _ St))|]. apply Hq; assumption.
Qed.
Section frames.
Variable ds : list tag_directive.
Hypothesis Hds : forall td, In td (all_tds ds) -> valid_handle (td_handle td).
Variable e : event.
Variable an : analysis.
Variable u : bool.
Variable q : list event.
Hypothesis Han : an_ok u (all_tds ds) (e_data e) an.
Hypothesis Hfine : fine (all_tds ds) (e_data e).
Hypothesis Hopen : opens (e_data e) = true -> q <> [].
Definition upto (fs : list lframe) (first : bool) (c : est) (Q : post) : Prop :=
  forall tk c' ls' fs' first' sb', lcstep (LT (LDoc ds fs) first false) (e_data e) tk (LT (LDoc ds fs') first' false) ->
    stay c c' -> D fs' first' sb' (em_events c') c' ls' -> Q tk c' ls'.
Lemma next_inner f : inner_root (next_frame f). Proof. destruct f; exact Logic.I. Qed.
(** A node, after what stands before it. *)
Lemma W_child f r first (sb : bool) pre c0 b1 b2 (mp : bool) li k x y w i c ls (Q : post) :
  f <> LDone -> pre = llead f first -> EmitGrammar.is_node (e_data e) = true -> good u c -> stay c0 c -> em_events c0 = q -> em_states c = sts r false ->
  em_flow_level c = Z.of_N (flows (next_frame f :: r)) -> ind_ok (next_frame f :: r) (em_indent c) (em_indents c) li ->
  NP w (rel sb (next_frame f :: r)) li ls k -> k = (if sb then YSoon 1024 else YNo) ->
  (sb = true -> key_fits (e_data e) an c = true /\ exists b, next_frame f = LVal b) ->
  (w = true -> flows (next_frame f :: r) = 0 -> sb = false -> ~ blank_scalar (e_data e) /\ i = true) ->
  (f = LRoot true -> w = true) ->
  (mp = true -> match next_frame f with LKey _ | LVal _ => True | _ => False end) ->
  (i = true -> flows (next_frame f :: r) = 0 -> sb = false -> lal ls = true /\ x = (em_indent c + 1)%Z /\ Z.of_N (lcol ls) = x /\ w = (em_indent c <? 0)%Z) ->
  upto (f :: r) first c0 Q ->
  W (push_estate (st_of (next_frame f) false sb) ;; emit_node e b1 b2 mp sb an) (mv x y w i c) ls (fun t c' ls' => Q (pre ++ t) c' ls').
Proof.
  intros Hf -> Hn (G1 & G2 & G3 & G4) S Hev Hs Hfl Hi Hnp Hk Hsb Hw Hrt Hmp Hline Hq. apply W_seq, W_push. cbv beta. cbn [app].
  set (f' := next_frame f) in *. pose proof (next_inner f) as Hin. fold f' in Hin. pose proof (ind_low _ _ _ _ Hi) as Hlo. pose proof (ind_top _ _ _ _ Hi) as Htp. cbv iota in Htp.
  set (c1 := set_em_states _ c).
  eapply (W_node lf Hlf e b1 b2 mp sb an (all_tds ds) (rel sb (f' :: r)) li k); [exact Hfine|exact Hn|change (em_unicode c1) with (em_unicode c); rewrite G4; exact Han|exact Hds|exact G1|exact G2|exact G3|reflexivity|rewrite flows_rel; exact Hfl|exact (proj1 Hlo)| |exact Hnp|exact Hk|intros E; exact (proj1 (Hsb E))|rewrite flows_rel; intros; apply Hw; assumption|].
  { rewrite flows_rel. intros F0. rewrite (flows_zero _ _ F0) in Htp. change (em_indent c1) with (em_indent c). exact Htp. }
  intros tk act c' ls' Hnd K Ho. rewrite Hs in Ho. assert (S' : stay c0 c').
  { eapply stay_trans; [exact S|]. apply keep_stay in K. destruct K; constructor; assumption. }
  assert (Eev : em_events c' = q) by (rewrite (s_ev _ _ S'); exact Hev).
  assert (Ho' : em_states c' = st_of f' false sb :: sts r false -> ind_ok (f' :: r) (em_indent c') (em_indents c') li) by (intros _; rewrite (k_in _ _ K), (k_ins _ _ K); exact Hi).
  assert (Hfl' : em_flow_level c' = Z.of_N (flows (f' :: r))) by (rewrite (k_fl _ _ K); exact Hfl).
  assert (Hi' : ind_ok (f' :: r) (em_indent c') (em_indents c') li) by (rewrite (k_in _ _ K), (k_ins _ _ K); exact Hi).
  assert (Step : act_ok act f' -> shows f act tk -> lcstep (LT (LDoc ds (f :: r)) first false) (e_data e) (llead f first ++ tk) (LT (LDoc ds (push_act act (f' :: r))) (opens_act act) false)).
  { intros A1 A2. apply L_node; assumption. }
  assert (Shw : act <> NEmpty -> shows f act tk) by (intros E; destruct f as [[]| | | |]; cbn [shows]; auto; congruence).
  assert (Op : opens_act act = true -> q <> []) by (intros E; apply Hopen; destruct Hnd; try discriminate E; reflexivity).
  assert (CF : forall g, push_act act (f' :: r) = g :: f' :: r -> opens_act act = true -> first_state act = st_of g true false -> in_block act = blk g -> (forall p, end_head act p = head_end g p) ->
     match g with LSeq _ | LKey _ => True | _ => False end ->
     match act with NSeq SkBlock => g = LSeq SkBlock | NSeq SkInd => g = LSeq SkInd | _ => match g with LSeq SkBlock | LSeq SkInd => False | _ => True end end ->
     (em_state c' = first_state act /\ em_states c' = st_of f' false sb :: sts r false /\ em_mapping_context c' = mp /\
      (exists k, NP (em_whitespace c') (rel sb (f' :: r)) li ls' k /\ (k = YNo <-> sb = false) /\ room k 10) /\
      (em_indention c' = true -> i = true /\ em_column c' = x /\ em_whitespace c' = w /\ ls' = ls) /\ (em_whitespace c' = true -> w = true /\ em_indention c' = i) /\
      (in_block act = true -> flows (rel sb (f' :: r)) = 0 /\ sb = false /\ end_head act (em_events c') = false) /\ (sb = true -> end_head act (em_events c') = true) /\
      match act with NSeq SkBlock => mp && negb (em_indention c') = false | NSeq SkInd => mp = true /\ em_indention c' = false | _ => True end) ->
     (act_ok act f' -> D (g :: f' :: r) true sb (em_events c') c' ls') /\ act_ok act f').
  { intros g Eg E1 E2 E3 E4 E5 E6 (O1 & O2 & O3 & O4 & O5 & O5' & O6 & O7 & O8). rewrite flows_rel in O6.
    assert (Aok : act_ok act f').
    { destruct act as [| |[]|[]]; try discriminate E1; cbn [act_ok]; try exact Logic.I; cbn [in_block] in O6; destruct (O6 eq_refl) as (O9 & _).
      - exact (flows_zero _ _ O9).
      - destruct O8 as [O8 _]. specialize (Hmp O8). apply flows_zero in O9. destruct f' as [| | |[]|[]]; try contradiction; try discriminate; auto.
      - exact (flows_zero _ _ O9). }
    split; [|exact Aok]. intros _. split; [rewrite O1, E2; reflexivity|]. split; [cbn [andb sts]; rewrite O2, sts_map; reflexivity|]. split; [exact Hfl'|]. exists li. split; [exact Hi'|].
    constructor.
    - exact O4.
    - intros F0 Esb Ei. destruct (O5 Ei) as (P1 & P2 & P3 & ->). destruct (Hline P1 F0 Esb) as (L1 & L2 & L3 & L4). rewrite (k_in _ _ K). change (em_indent c1) with (em_indent c). split; [exact L1|]. split; [congruence|]. split; congruence.
    - intros F0 Esb Ew. destruct (O5' Ew) as (P1 & P2). rewrite P2. exact (proj2 (Hw P1 F0 Esb)).
    - exact Hin.
    - intros Esb. destruct (Hsb Esb) as (_ & b & E). exists b, r. rewrite E. reflexivity.
    - split; [rewrite Eev; apply Op, E1|]. split; [intros Eb; rewrite <- E3 in Eb; destruct (O6 Eb) as (P1 & P2 & P3); rewrite <- E4; auto|intros Esb; rewrite <- E4; apply O7, Esb].
    - destruct act as [| |[]|[]]; try discriminate E1.
      + destruct g as [| |[]|[]|[]]; try contradiction; exact Logic.I.
      + rewrite E6, O3. exact O8.
      + rewrite E6, O3. destruct O8 as [O8 O9]. split; [exact O8|]. split; [exact O9|]. exists f', r. split; [reflexivity|]. exact Aok.
      + destruct g as [| |[]|[]|[]]; try contradiction; exact Logic.I.
      + destruct g as [| |[]|[]|[]]; try contradiction; exact Logic.I. }
  destruct act as [| |sk|b].
  - destruct Ho as (O1 & O2 & O3). eapply (Hq _ c' ls' _ _ sb); [apply Step; [exact Logic.I|apply Shw; discriminate]|exact S'|].
    split; [exact O1|]. split; [exact O2|]. split; [exact Hfl'|]. exists li. split; [exact Hi'|]. cbn [op].
    assert (X : DNn f' r sb li (em_whitespace c') (em_indention c') (em_column c') ls').
    { unfold DNn. destruct O3 as [(O3 & O4 & O5)|(-> & O3 & O4 & O5)].
      - rewrite O3, O4. destruct sb.
        + destruct (Hsb eq_refl) as (_ & b & E). rewrite E in *. auto.
        + assert (rel false (f' :: r) = f' :: r) as Er by (destruct f'; reflexivity). rewrite Er in O5. destruct O5 as [O5 O6]. destruct (blk f') eqn:Eb; [|auto].
          split; [eapply At_Bk; [exact O5|]; cbn [flows]; rewrite Eb; reflexivity|]. left. split; [reflexivity|apply unlined_break, sep_un, O6].
      - rewrite flows_rel in O3. rewrite (flows_zero _ _ O3). auto. }
    destruct f'; try contradiction Hin; exact X.
  - destruct Ho as (O1 & O2 & O3 & O4 & O5 & O6 & O7 & O8). rewrite flows_rel in O6. pose proof (flows_zero _ _ O6) as Eb. eapply (Hq _ c' ls' _ _ sb); [apply Step; [exact Eb|]|exact S'|].
    { destruct f as [[]| | | |]; cbn [shows]; auto. }
    split; [exact O1|]. split; [exact O2|]. split; [exact Hfl'|]. exists li. split; [exact Hi'|]. cbn [op].
    assert (Er : rel sb (f' :: r) = f' :: r) by (rewrite O5; destruct f'; reflexivity). rewrite Er in O7. destruct (NP_Bk _ _ _ O7 O6) as (B & _ & B2).
    assert (X : Bk li ls' /\ after (em_whitespace c') (em_indention c') (em_column c') ls') by (split; [exact B|left; split; [exact O4|apply unlined_break, settled_un, B2]]). rewrite O5. cbn [push_act]. destruct f' as [| |[]|[]|[]]; try contradiction Hin; try discriminate Eb; exact X.
  - destruct (CF (LSeq sk)) as [C1 C2]; [reflexivity|reflexivity|destruct sk; reflexivity|destruct sk; reflexivity|intros [|? ?]; reflexivity|exact Logic.I|destruct sk; auto|exact Ho|].
    eapply (Hq _ c' ls' _ _ sb); [apply Step; [exact C2|apply Shw; discriminate]|exact S'|exact (C1 C2)].
  - destruct (CF (LKey b)) as [C1 C2]; [reflexivity|reflexivity|destruct b; reflexivity|destruct b; reflexivity|intros [|? ?]; reflexivity|exact Logic.I|exact Logic.I|exact Ho|].
    eapply (Hq _ c' ls' _ _ sb); [apply Step; [exact C2|apply Shw; discriminate]|exact S'|exact (C1 C2)].
Qed.
Lemma At_flow w f r li ls : At (f :: r) li ls YNo -> blk f = false -> (if w : bool then opens_gate ls GNode = true else settled (ln ls)) -> (lal ls = true -> loose (f :: r)) -> NP w (f :: r) li ls YNo.
Proof.
  intros H Hf Hn Hl. assert (V : lv ls = 0 -> False) by (rewrite (at_lv _ _ _ _ H); cbn [flows]; rewrite Hf; lia).
  constructor; [exact (at_lv _ _ _ _ H)|unfold eli; rewrite (at_soon _ _ _ _ H); exact (at_li _ _ _ _ H)|exact (at_below _ _ _ _ H)|exact Hn|exact (at_key _ _ _ _ H)|intros E; destruct (V E)|left; exact (at_pop _ _ _ _ H)|intros _ E; destruct (V E)|exact Hl].
Qed.
Lemma W_wrap fs li x y w c ls (Q : post) : good u c -> At fs li ls YNo -> unlined (ln ls) -> flows fs <> 0 ->
  (forall x' y' w' i' ls', At fs li ls' YNo -> lal ls' = lal ls -> (ls' = ls /\ w' = w /\ i' = false \/ ln ls' = broken_ (ln ls) /\ w' = true) -> Q [] (mv x' y' w' i' c) ls') ->
  W wrap_line (mv x y w false c) ls Q.
Proof.
  intros (G1 & G2 & G3 & G4) HA Hu Hf Hq. unfold wrap_line. apply W_get; [reflexivity|]. change (em_canonical (mv x y w false c)) with (em_canonical c). rewrite G1. cbn [orb].
  apply W_when; intros _; [|apply Hq; auto].
  destruct (At_break lf Hlf (Z.to_nat (em_indent c)) fs li ls HA Hu) as (ls' & E & A & A1 & A2 & A3).
  eapply (W_break lf c); [exact G3|exact E|exact (pend_at _ _ _ _ HA)|exact (pend_at _ _ _ _ A)|]. intros y'. apply Hq; [exact A| |auto].
  rewrite A1. replace (lv ls =? 0) with false; [reflexivity|]. rewrite (at_lv _ _ _ _ HA). lia.
Qed.
Lemma new_flow i b : (-1 <= i)%Z -> (2 <= b <= 9)%Z -> (i < new_indent true false i b <= i + 10)%Z /\ (2 <= new_indent true false i b)%Z.
Proof. intros H Hb. unfold new_indent. destruct (i <? 0)%Z eqn:E; lia. Qed.
Definition mstart (mp : bool) : token_data := if mp then TFlowMappingStart else TFlowSequenceStart.
Lemma W_flow_open mp r li sb k x y w i c ls (Q : post) : good u c -> em_flow_level c = Z.of_N (flows r) -> NP w (rel sb r) li ls k -> room k 10 -> flows r < 2147483647 ->
  (forall x' c' ls', good u c' -> stay c c' -> em_states c' = em_states c -> em_flow_level c' = Z.of_N (flows r + 1) -> em_indent c' = new_indent true false (em_indent c) (em_best_indent c) -> em_indents c' = em_indent c :: em_indents c ->
     Under (rel sb r) li ls' (less (sure k) 2) -> (flows r = 0 -> (LayItems.top li <= Z.of_N (lcol ls'))%Z) -> Q [mstart mp] (mv x' y true false c') ls') ->
  W (write_indicator [if mp then cLBRC else cLBRK] true true false ;; increase_indent true false ;; add_flow_level 1) (mv x y w i c) ls Q.
Proof.
  intros G Hfl Hnp Hr Hb Hq. destruct (NP_open lf mp w (rel sb r) li ls k Hnp) as (ls' & E & U1 & U2 & U3); [eapply room_le; [|exact Hr]; lia|rewrite flows_rel; exact Hb|].
  assert (Pd : pend ls' = []) by (unfold pend; rewrite (un_soon _ _ _ _ U1); reflexivity).
  apply W_seq. eapply (W_indicator lf (IOpen mp)); [destruct mp; reflexivity|exact Logic.I|cbn [andb]; rewrite negb_involutive; exact E|rewrite Pd; symmetry; apply app_nil_r|].
  rewrite andb_false_r. apply W_seq, W_increase, W_flow. cbn [app]. rewrite flows_rel in U3. change (itok (IOpen mp)) with [mstart mp]. apply Hq; [exact G|constructor; reflexivity|reflexivity| |reflexivity|reflexivity|exact U1|exact U3].
  change (Z.add (em_flow_level c) 1 = Z.of_N (flows r + 1)). rewrite Hfl. lia.
Qed.
Definition mframe (mp : bool) : lframe := if mp then LKey false else LSeq SkFlow.
Definition mend (mp : bool) : token_data := if mp then TFlowMappingEnd else TFlowSequenceEnd.
Lemma D_flow mp r first sb q0 x y w i c ls : D (mframe mp :: r) first sb q0 (mv x y w i c) ls ->
  exists li, em_states c = sts r (first && sb) /\ em_flow_level c = Z.of_N (flows (op (mframe mp) r first)) /\ ind_ok (op (mframe mp) r first) (em_indent c) (em_indents c) li /\
   match r with p :: _ => inner_root p | [] => False end /\
   if first then (exists k, NP w (rel sb r) li ls k /\ (k = YNo <-> sb = false) /\ room k 10) /\ (sb = true -> head_end (mframe mp) q0 = true /\ exists b r', r = LVal b :: r')
   else sb = false /\ w = false /\ i = false /\ At (mframe mp :: r) li ls YNo /\ opens_gate ls GSep = true.
Proof.
  intros (H1 & H2 & H3 & li & H4 & H5). exists li. split; [exact H2|]. split; [exact H3|]. split; [exact H4|]. destruct first; cbn [op] in *.
  - split; [exact (df_in _ _ _ _ _ _ _ H5)|]. split; [exact (df_np _ _ _ _ _ _ _ H5)|intros E; split; [exact (proj2 (proj2 (df_q _ _ _ _ _ _ _ H5)) E)|exact (df_sb _ _ _ _ _ _ _ H5 E)]].
  - split; [destruct mp; inversion H4; subst; try contradiction; assumption|]. destruct mp; cbn [DN DNn] in H5; unfold DNn in H5; (destruct sb; destruct H5 as (E1 & E2 & E3); [contradiction E3|]; split; [reflexivity|]; split; [exact E1|]; split; [exact E2|exact E3]).
Qed.
Lemma W_flow_item mp r first sb rest x y w i c ls (Q : post) : good u c -> D (mframe mp :: r) first sb (e :: q) (mv x y w i c) ls -> e_data e <> (if mp then EvMappingEnd else EvSequenceEnd) -> flows r < 2147483647 ->
  (forall x' y' w' i' c' ls' li, good u c' -> stay c c' -> em_states c' = sts r false -> em_flow_level c' = Z.of_N (flows (mframe mp :: r)) -> ind_ok (mframe mp :: r) (em_indent c') (em_indents c') li ->
     At (mframe mp :: r) li ls' YNo -> lal ls' = true -> ln ls' = Free -> W rest (mv x' y' w' i' c') ls' (fun t c2 ls2 => Q ([if first then mstart mp else TFlowEntry] ++ t) c2 ls2)) ->
  W (when first (write_indicator [if mp then cLBRC else cLBRK] true true false ;; increase_indent true false ;; add_flow_level 1) ;; (when (negb first) (write_indicator [cCOMMA] false false false) ;; (wrap_line ;; rest))) (mv x y w i c) ls Q.
Proof.
  intros G HD Hne Hb Hq. destruct (D_flow _ _ _ _ _ _ _ _ _ _ _ HD) as (li & H1 & H2 & H3 & H4 & H5).
  assert (Bf : blk (mframe mp) = false) by (destruct mp; reflexivity). assert (Ef : flows (mframe mp :: r) = 1 + flows r) by (cbn [flows]; rewrite Bf; reflexivity).
  assert (K : forall x y w c' ls' tk, tk = [if first then mstart mp else TFlowEntry] -> good u c' -> stay c c' -> em_states c' = sts r false -> em_flow_level c' = Z.of_N (flows (mframe mp :: r)) -> ind_ok (mframe mp :: r) (em_indent c') (em_indents c') li ->
     At (mframe mp :: r) li ls' YNo -> lal ls' = true -> ln ls' = Free -> W (wrap_line ;; rest) (mv x y w false c') ls' (fun t c2 ls2 => Q (tk ++ t) c2 ls2)).
  { intros x0 y0 w0 c0 l0 tk -> G0 S0 E0 F0 I0 A0 L0 N0. apply W_seq. eapply W_wrap; [exact G0|exact A0|rewrite N0; exact Logic.I|lia|]. intros x1 y1 w1 i1 l1 A1 L1 C1. cbn [app].
    assert (N1 : ln l1 = Free) by (destruct C1 as [(-> & _)|(C1 & _)]; [exact N0|rewrite C1, N0; reflexivity]).
    apply (Hq x1 y1 w1 i1 c0 l1 li G0 S0 E0 F0 I0 A1); [rewrite L1; exact L0|exact N1]. }
  destruct first; cbn [when negb andb op] in *.
  - destruct H5 as ((k & Hnp & Hk & Hr) & Hsb).
    assert (sb = false) as ->. { destruct sb; [|reflexivity]. exfalso. destruct (Hsb eq_refl) as [Hsb' _]. rename Hsb' into Hsb1. apply Hne. destruct mp; cbn [mframe head_end] in Hsb1; destruct (e_data e); try discriminate; reflexivity. }
    assert (k = YNo) as -> by (apply Hk; reflexivity).
    apply W_seq. eapply (W_flow_open mp r li false YNo); [exact G|exact H2|exact Hnp|exact Hr|exact Hb|]. intros x1 c1 l1 G1 S1 E1 F1 I1 I2 U1 U2. cbn [less sure] in U1.
    assert (Er : rel false r = r) by (destruct r as [|[] ?]; reflexivity). rewrite Er in U1. apply W_seq, W_ret. cbn [app].
    pose proof (new_flow (em_indent c) (em_best_indent c) ltac:(apply ind_low in H3; lia) ltac:(apply G)) as [I3 I4].
    apply (K x1 y true c1 l1 [mstart mp]); [reflexivity|exact G1|exact S1|rewrite E1; exact H1|rewrite F1; lia| |exact (Under_At _ _ _ _ U1 Bf)|exact (un_al _ _ _ _ U1)|exact (un_n _ _ _ _ U1)].
    rewrite I1, I2. destruct r as [|p r]; [contradiction H4|]. apply IO_flow; assumption.
  - destruct H5 as (-> & -> & -> & A & Gs). apply W_seq, W_ret. cbn [app]. apply W_seq.
    destruct (At_comma lf (mframe mp) r li ls A Bf Gs) as (l1 & E1 & A1 & L1 & N1).
    eapply (W_indicator lf IComma); [reflexivity|exact Logic.I|cbn [andb negb sp app LayScan.lrun]; rewrite E1; reflexivity|rewrite (pend_at _ _ _ _ A), (pend_at _ _ _ _ A1); reflexivity|].
    cbn [andb]. apply (K _ y false c l1 [TFlowEntry]); [reflexivity|exact G|apply stay_refl|exact H1|exact H2|exact H3|exact A1|exact L1|exact N1].
Qed.
Lemma W_flow_end mp r first sb x y w i c ls (Q : post) : good u c -> D (mframe mp :: r) first sb (e :: q) (mv x y w i c) ls -> e_data e = (if mp then EvMappingEnd else EvSequenceEnd) -> flows r < 2147483647 ->
  upto (mframe mp :: r) first c Q ->
  W (when first (write_indicator [if mp then cLBRC else cLBRK] true true false ;; increase_indent true false ;; add_flow_level 1) ;; close_flow first (if mp then cRBRC else cRBRK)) (mv x y w i c) ls Q.
Proof.
  intros G HD Hee Hb Hq. destruct (D_flow _ _ _ _ _ _ _ _ _ _ _ HD) as (li & H1 & H2 & H3 & H4 & H5).
  assert (Bf : blk (mframe mp) = false) by (destruct mp; reflexivity). assert (Ef : flows (mframe mp :: r) = 1 + flows r) by (cbn [flows]; rewrite Bf; reflexivity).
  destruct r as [|p r]; [contradiction H4|].
  set (tks := (if first then [mstart mp] else []) ++ [mend mp]).
  assert (Step : lcstep (LT (LDoc ds (mframe mp :: p :: r)) first false) (e_data e) tks (LT (LDoc ds (p :: r)) false false)).
  { rewrite Hee. destruct mp; [apply L_map_end|apply L_seq_end]; reflexivity. }
  assert (K : forall x y w c' l1 l2 tk ind inds t, good u c' -> stay c c' -> em_states c' = sts (p :: r) (first && sb) -> em_flow_level c' = Z.of_N (flows (p :: r) + 1) -> em_indents c' = ind :: inds -> ind_ok (p :: r) ind inds li ->
     lstep l1 (IClose mp) = Some (l2, [mend mp]) -> pend l1 = [] -> pend l2 = [] -> tk ++ [mend mp] = tks -> t = tk ->
     (if first && sb then match p with LVal b => exists n, 1 <= n /\ At (LKey b :: r) li l2 (YLive n) /\ opens_gate l2 GVal = true /\ (lv l2 = 0 -> (LayItems.top li <= Z.of_N (lcol l2))%Z) | _ => False end
      else At (p :: r) li l2 YNo /\ opens_gate l2 GSep = true) ->
     W (close_flow first (if mp then cRBRC else cRBRK)) (mv x y w false c') l1 (fun t' c2 ls2 => Q (t ++ t') c2 ls2)).
  { clear x y w i HD H1 H2 H3 H5. intros x y w c' l1 l2 tk ind inds t G1 S1 E1 F1 I1 I2 L P1 P2 <- -> Fin. unfold close_flow. apply W_seq, W_flow, W_seq. eapply W_pop_indent; [exact I1|]. cbn [app].
    set (c2 := set_em_indent ind _). apply W_get; [reflexivity|]. change (em_canonical (mv x y w false c2)) with (em_canonical c'). rewrite (proj1 G1). cbn [andb when]. apply W_seq, W_ret. cbn [app].
    apply W_seq. eapply (W_indicator lf (IClose mp)); [destruct mp; reflexivity|exact Logic.I|cbn [andb negb sp app LayScan.lrun]; rewrite L; reflexivity|rewrite P1, P2; reflexivity|].
    cbn [andb]. eapply W_pop; [exact E1|]. cbn [app]. eapply (Hq _ _ _ _ _ (first && sb)).
    - exact Step.
    - eapply stay_trans; [exact S1|]. constructor; reflexivity.
    - split; [cbn [negb andb]; reflexivity|]. split; [cbn [andb]; rewrite sts_map; reflexivity|]. split; [cbn [op]; change (Z.add (em_flow_level c') (-1) = Z.of_N (flows (p :: r))); rewrite F1; lia|].
      exists li. split; [exact I2|]. cbn [op].
      assert (X : DNn p r (first && sb) li false false (x + (if false && negb w then 1 else 0) + Z.of_nat (length [if mp then cRBRC else cRBRK])) l2).
      { unfold DNn. destruct (first && sb); [auto|]. destruct (blk p) eqn:Eb; [|auto]. split; [eapply At_Bk; [apply Fin|]; cbn [flows]; rewrite Eb; reflexivity|]. left. split; [reflexivity|apply unlined_break, sep_un, Fin]. }
      destruct p; try contradiction H4; exact X. }
  destruct first; cbn [when negb andb op] in *.
  - destruct H5 as ((k & Hnp & Hk & Hr) & Hsb).
    apply W_seq. eapply (W_flow_open mp (p :: r) li sb k); [exact G|exact H2|exact Hnp|exact Hr|exact Hb|]. intros x1 c1 l1 G1 S1 E1 F1 I1 I2 U1 U2.
    assert (R1 : room (less (sure k) 2) 8) by (apply room_less; exact Hr).
    destruct (Under_close lf mp _ li l1 _ U1) as (l2 & L & A & A1 & A2 & A3); [eapply room_le; [|exact R1]; lia|].
    assert (P1 : pend l1 = []) by (unfold pend; rewrite (un_soon _ _ _ _ U1); reflexivity).
    apply (K x1 y true c1 l1 l2 [mstart mp] (em_indent c) (em_indents c)); [exact G1|exact S1|rewrite E1; exact H1|exact F1|exact I2|exact H3|destruct mp; exact L|exact P1|exact (pend_at _ _ _ _ A)|reflexivity|reflexivity|].
    destruct sb.
    + assert (Ek : less (less (sure k) 2) 1 <> YNo) by (intros E; assert (k <> YNo) by (rewrite Hk; discriminate); destruct k; [congruence|discriminate E|discriminate E]).
      assert (R2 : room (less (less (sure k) 2) 1) 7) by (destruct (less (sure k) 2); cbn [less room] in *; [exact Logic.I|lia|lia]).
      destruct (At_live _ _ _ _ _ A (at_soon _ _ _ _ A) Ek R2) as (n & Hn & A').
      destruct (Hsb eq_refl) as (_ & b & r' & [= -> <-]). exists n. split; [lia|]. split; [exact A'|]. split; [unfold opens_gate; rewrite A2; reflexivity|].
      intros V. rewrite A3. assert (F0 : flows (LVal b :: r) = 0) by (rewrite <- (flows_rel true), <- (at_lv _ _ _ _ A); exact V). specialize (U2 F0). lia.
    + assert (k = YNo) as -> by (apply Hk; reflexivity). assert (Er : rel false (p :: r) = p :: r) by (destruct p; reflexivity). rewrite Er in A. cbn [less sure] in A. split; [exact A|]. unfold opens_gate. rewrite A2. reflexivity.
  - destruct H5 as (-> & -> & -> & A & Gs). apply W_seq, W_ret. cbn [app].
    destruct (At_close lf mp (mframe mp) (p :: r) li ls A Bf Gs) as (l2 & L & A2 & L2 & N2).
    destruct (ind_flow _ _ _ _ _ _ H3 Bf) as (j & l & Ei & X5).
    apply (K x y false c ls l2 [] j l []); [exact G|apply stay_refl|exact H1|rewrite H2, Ef; lia|exact Ei|exact X5|destruct mp; exact L|exact (pend_at _ _ _ _ A)|exact (pend_at _ _ _ _ A2)|reflexivity|reflexivity|].
    cbn [andb]. split; [exact A2|]. unfold opens_gate. rewrite N2. reflexivity.
Qed.
(** ** Flow collections *)
Lemma no_end f d (A B : M est unit) : EmitGrammar.is_node d = true -> match f with LSeq _ => match d with EvSequenceEnd => A | _ => B end | _ => match d with EvMappingEnd => A | _ => B end end = B.
Proof. intros H. destruct f, d; try discriminate H; reflexivity. Qed.
Lemma node_ne d : EmitGrammar.is_node d = true -> d <> EvSequenceEnd /\ d <> EvMappingEnd. Proof. intros H. split; intros ->; discriminate H. Qed.
Lemma flow_pos f r : blk f = false -> flows (f :: r) = 0 -> False. Proof. intros H. cbn [flows]. rewrite H. lia. Qed.
Lemma W_fseq r first sb x y w i c ls (Q : post) : good u c -> em_events c = q -> D (LSeq SkFlow :: r) first sb (e :: q) (mv x y w i c) ls -> flows r < 2147483647 -> (e_data e = EvSequenceEnd \/ EmitGrammar.is_node (e_data e) = true) ->
  upto (LSeq SkFlow :: r) first c Q -> W (emit_flow_sequence_item e first an) (mv x y w i c) ls Q.
Proof.
  intros G Hev HD Hb He Hq. unfold emit_flow_sequence_item. destruct He as [He|Hn].
  - rewrite He. exact (W_flow_end false r first sb x y w i c ls Q G HD He Hb Hq).
  - rewrite (no_end (LSeq SkFlow) _ (close_flow first cRBRK) _ Hn). eapply (W_flow_item false r first sb); [exact G|exact HD|apply node_ne, Hn|exact Hb|].
    intros x1 y1 w1 i1 c1 l1 li G1 S1 E1 F1 I1 A1 L1 N1. assert (NPx : NP w1 (LSeq SkFlow :: r) li l1 YNo).
    { apply At_flow; [exact A1|reflexivity| |intros _; exact Logic.I]. destruct w1; [unfold opens_gate; rewrite N1; reflexivity|rewrite N1; exact Logic.I]. }
    eapply (W_child (LSeq SkFlow) r first false [if first then TFlowSequenceStart else TFlowEntry] c false true false li YNo x1 y1 w1 i1 c1 l1);
      [discriminate|reflexivity|exact Hn|exact G1|exact S1|exact Hev|exact E1|exact F1|exact I1|exact NPx|reflexivity|discriminate| |discriminate|discriminate| |exact Hq];
      intros _ Hf; destruct (flow_pos (LSeq SkFlow) r eq_refl Hf).
Qed.
Lemma W_fkey r first sb x y w i c ls (Q : post) : good u c -> em_events c = q -> D (LKey false :: r) first sb (e :: q) (mv x y w i c) ls -> flows r < 2147483647 -> (e_data e = EvMappingEnd \/ EmitGrammar.is_node (e_data e) = true) ->
  upto (LKey false :: r) first c Q -> W (emit_flow_mapping_key e first an) (mv x y w i c) ls Q.
Proof.
  intros G Hev HD Hb He Hq. unfold emit_flow_mapping_key. destruct He as [He|Hn].
  - rewrite He. exact (W_flow_end true r first sb x y w i c ls Q G HD He Hb Hq).
  - rewrite (no_end (LKey false) _ (close_flow first cRBRC) _ Hn). eapply (W_flow_item true r first sb); [exact G|exact HD|apply node_ne, Hn|exact Hb|].
    intros x1 y1 w1 i1 c1 l1 li G1 S1 E1 F1 I1 A1 L1 N1. cbn [mframe mstart] in *.
    apply W_get; [reflexivity|]. change (em_canonical (mv x1 y1 w1 i1 c1)) with (em_canonical c1). rewrite (proj1 G1).
    apply (W_val lf _ (key_fits (e_data e) an c1)).
    { intros s Hs. rewrite (check_val e an (all_tds ds) (mv x1 y1 w1 i1 c1) s); [reflexivity| |exact Hs]. change (em_unicode (mv x1 y1 w1 i1 c1)) with (em_unicode c1). rewrite (proj2 (proj2 (proj2 G1))). exact Han. }
    assert (Lead : forall t, [if first then TFlowMappingStart else TFlowEntry] ++ [Base.TKey] ++ t = llead (LKey false) first ++ t) by reflexivity.
    destruct (key_fits (e_data e) an c1) eqn:Ek.
    + destruct (At_mark lf r li l1 A1 L1 N1) as (l2 & E2 & NP2 & P1 & P2).
      eapply (W_pre lf [IMark] _ _ l1 l2 [] [Base.TKey]); [reflexivity|constructor; [exact Logic.I|constructor]|cbn [LayScan.lrun]; rewrite E2; reflexivity|rewrite P1, P2; reflexivity|].
      eapply (W_child (LKey false) r first true (llead (LKey false) first) c false false true li (YSoon 1024) x1 y1 w1 i1 c1 l2 (fun t c' ls' => Q t c' ls'));
        [discriminate|reflexivity|exact Hn|exact G1|exact S1|exact Hev|exact E1|exact F1|exact (ind_next _ _ _ _ _ I1)|apply NP2|reflexivity|intros _; split; [exact Ek|exists false; reflexivity]|discriminate|discriminate|intros _; exact Logic.I|discriminate|exact Hq].
    + assert (X : exists l2 l3, lrun l1 (sp (negb (true && negb w1))) = Some (l2, []) /\ lstep l2 IKey = Some (l3, [Base.TKey]) /\ At (LVal false :: r) li l3 YNo /\ lal l3 = false /\ ln l3 = Blank).
      { assert (Y : forall l2, At (LKey false :: r) li l2 YNo -> ln l2 = Free -> exists l3, lstep l2 IKey = Some (l3, [Base.TKey]) /\ At (LVal false :: r) li l3 YNo /\ lal l3 = false /\ ln l3 = Blank).
        { intros l2 A2 N2. apply At_key; [exact A2|]. unfold opens_gate. rewrite N2. reflexivity. }
        destruct w1; cbn [andb negb sp].
        - destruct (Y l1 A1 N1) as (l3 & H). exists l1, l3. split; [reflexivity|exact H].
        - destruct (At_space lf _ li l1 A1 ltac:(rewrite N1; exact Logic.I)) as (l2 & E2 & A2 & _ & N2 & _). rewrite N1 in N2. destruct (Y l2 A2 N2) as (l3 & H). exists l2, l3. split; [cbn [LayScan.lrun]; rewrite E2; reflexivity|exact H]. }
      destruct X as (l2 & l3 & R2 & E3 & A3 & L3 & N3). apply W_seq. eapply (W_indicator lf IKey _ true false false x1 y1 w1 i1 c1 l1 l3 [Base.TKey] [Base.TKey]); [reflexivity|exact Logic.I| |rewrite (pend_at _ _ _ _ A1), (pend_at _ _ _ _ A3); reflexivity|].
      { apply (lrun_join lf _ _ _ _ [] _ [Base.TKey] R2). cbn [LayScan.lrun]. rewrite E3. reflexivity. }
      rewrite andb_false_r. assert (NPx : NP false (LVal false :: r) li l3 YNo).
      { apply At_flow; [exact A3|reflexivity|rewrite N3; exact Logic.I|rewrite L3; discriminate]. }
      eapply (W_child (LKey false) r first false (llead (LKey false) first) c false false true li YNo _ y1 false false c1 l3 (fun t c' ls' => Q t c' ls'));
        [discriminate|reflexivity|exact Hn|exact G1|exact S1|exact Hev|exact E1|exact F1|exact (ind_next _ _ _ _ _ I1)|exact NPx|reflexivity|discriminate|discriminate|discriminate|intros _; exact Logic.I|discriminate|exact Hq].
Qed.
Lemma W_fval r sb x y w i c ls (Q : post) : good u c -> em_events c = q -> D (LVal false :: r) false sb (e :: q) (mv x y w i c) ls -> EmitGrammar.is_node (e_data e) = true ->
  upto (LVal false :: r) false c Q -> W (emit_flow_mapping_value e sb an) (mv x y w i c) ls Q.
Proof.
  intros G Hev (H1 & H2 & H3 & li & H4 & H5) Hn Hq. cbn [op DN] in *. unfold DNn in H5. assert (w = false /\ i = false) as [-> ->] by (destruct sb; destruct H5 as (Ew & Ei & _); auto).
  assert (K : forall x' y' i' l' t, At (LKey false :: r) li l' YNo -> lal l' = false -> ln l' = Blank -> t = [TValue] ->
     W (push_estate EFlowMappingKey ;; emit_node e false false true false an) (mv x' y' false i' c) l' (fun t' c' ls' => Q (t ++ t') c' ls')).
  { intros x' y' i' l' t A' L' N' ->. eapply (W_child (LVal false) r false false [TValue] c false false true li YNo x' y' false i' c l');
      [discriminate|reflexivity|exact Hn|exact G|apply stay_refl|exact Hev|exact H2|exact H3|exact (ind_next _ _ _ _ _ H4)| |reflexivity|discriminate|discriminate|discriminate|intros _; exact Logic.I| |exact Hq].
    - apply At_flow; [exact A'|reflexivity|rewrite N'; exact Logic.I|intros _; exact Logic.I].
    - intros _ Hf. destruct (flow_pos (LKey false) r eq_refl Hf). }
  unfold emit_flow_mapping_value. apply W_seq. destruct sb.
  - destruct H5 as (_ & _ & n & Hn1 & A & Gv & T). destruct (At_simple lf (LKey false :: r) (LKey false :: r) li ls n A Hn1 Gv T eq_refl) as (l1 & E1 & A1 & L1 & N1 & _).
    { intros s0 r0 B. exact (below_off _ _ _ B). }
    eapply (W_indicator lf IValue); [reflexivity|exact Logic.I|cbn [andb negb sp app LayScan.lrun]; rewrite E1; reflexivity|rewrite (pend_at _ _ _ _ A), (pend_at _ _ _ _ A1); reflexivity|].
    apply K; [exact A1|exact L1|exact N1|reflexivity].
  - cbn [blk] in H5. destruct H5 as (_ & _ & A & Gs). apply W_seq. eapply (W_wrap (LVal false :: r) li x y false); [exact G|exact A|apply sep_un, Gs|intros E; exact (flow_pos (LVal false) r eq_refl E)|].
    intros x1 y1 w1 i1 l1 A1 L1 C1. cbn [app].
    assert (X : exists l2 l3, lrun l1 (sp (negb (true && negb w1))) = Some (l2, []) /\ lstep l2 IValue = Some (l3, [TValue]) /\ At (LKey false :: r) li l3 YNo /\ lal l3 = false /\ ln l3 = Blank).
    { destruct C1 as [(-> & -> & ->)|[N1 ->]]; cbn [andb negb sp].
      - destruct (At_space lf _ li ls A (sep_un _ Gs)) as (l2 & E2 & A2 & _ & N2 & _). destruct (At_value lf r li l2 A2) as (l3 & H).
        { pose proof (sep_un _ Gs) as U. unfold opens_gate. rewrite N2. destruct (ln ls); try reflexivity. contradiction U. }
        exists l2, l3. split; [cbn [LayScan.lrun]; rewrite E2; reflexivity|exact H].
      - destruct (At_value lf r li l1 A1) as (l3 & H).
        { pose proof (sep_un _ Gs) as U. unfold opens_gate. rewrite N1. destruct (ln ls); try reflexivity. contradiction U. }
        exists l1, l3. split; [reflexivity|exact H]. }
    destruct X as (l2 & l3 & R2 & E3 & A3 & L3 & N3).
    eapply (W_indicator lf IValue _ true false false x1 y1 w1 i1 c l1 l3 [TValue] [TValue]); [reflexivity|exact Logic.I| |rewrite (pend_at _ _ _ _ A1), (pend_at _ _ _ _ A3); reflexivity|].
    { apply (lrun_join lf _ _ _ _ [] _ [TValue] R2). cbn [LayScan.lrun]. rewrite E3. reflexivity. }
    apply K; [exact A3|exact L3|exact N3|reflexivity].
Qed.

(** ** Block collections *)
Lemma ind_pos f r i l li : ind_ok (f :: r) i l li -> match f with LRoot _ | LDone => True | _ => (0 <= i)%Z end.
Proof.
  intros H. inversion H as [f' Hf|f' p r' i' j l' li' Hf Hp Hr Hi H'|p r' i' l' li' Hp H'|f' p r' i' j l' li' Hf Hr Hi H2 H']; subst.
  - destruct f; try contradiction; exact Logic.I.
  - apply ind_low in H'. destruct f; try contradiction; lia.
  - destruct Hp as [-> | ->]; inversion H' as [f' Hf|f' p r i' j l li' Hf Hp Hr Hi H''| |f' p r i' j l li' Hf Hr Hi H2 H'']; subst; try contradiction; try discriminate; apply ind_low in H''; lia.
  - apply ind_low in H'. destruct f; try exact Logic.I; lia.
Qed.
Definition bframe (f : lframe) : Prop := match f with LSeq SkBlock | LSeq SkInd | LKey true => True | _ => False end.
Definition own (f : lframe) : bool := match f with LSeq SkInd => false | _ => true end.
Lemma ind_block f r i inds li : bframe f -> ind_ok (f :: r) i inds li -> exists p r' j l li', r = p :: r' /\ inds = j :: l /\ ind_ok (p :: r') j l li' /\ inner_root p /\ blk p = true /\ if own f then li = Z.to_N i :: li' /\ (j < i)%Z else li = li'.
Proof.
  intros Bf H. inversion H; subst.
  - destruct f; contradiction.
  - eexists _, _, _, _, _. split; [reflexivity|]. split; [reflexivity|]. split; [eassumption|]. split; [assumption|]. split; [assumption|]. destruct f as [| |[]|[]|[]]; try contradiction; cbn [own]; split; try reflexivity; lia.
  - eexists _, _, _, _, _. split; [reflexivity|]. split; [reflexivity|]. split; [eassumption|]. split; [|split; [|reflexivity]]; match goal with X : _ \/ _ |- _ => destruct X as [-> | ->] end; reflexivity || exact Logic.I.
  - destruct f as [| |[]|[]|[]]; try contradiction; discriminate.
Qed.
Lemma W_block_line f r first sb il rest x y w i c ls (Q : post) : bframe f -> good u c -> D (f :: r) first sb (e :: q) (mv x y w i c) ls -> 10 * N.of_nat (length (f :: r)) <= 2147483647 ->
  (first = true -> il = match f with LSeq _ => em_mapping_context c && negb i | _ => false end) ->
  (forall y' c' ls' li n, good u c' -> stay c c' -> em_states c' = sts r false -> em_flow_level c' = Z.of_N (flows (f :: r)) -> em_indent c' = Z.of_N n -> ind_ok (f :: r) (em_indent c') (em_indents c') (rolled li n) ->
     Start li n ls' -> (LayItems.top li <? Z.of_N n)%Z = first && own f -> n <= 2147483647 -> W rest (mv (Z.of_N n) y' true true c') ls' Q) ->
  W (when first (increase_indent false il) ;; (write_indent ;; rest)) (mv x y w i c) ls Q.
Proof.
  intros Bf G (H1 & H2 & H3 & li & H4 & H5) Hb Hil Hq. assert (Eb : blk f = true) by (destruct f as [| |[]|[]|[]]; try contradiction; reflexivity).
  assert (Ff : flows (f :: r) = 0) by (cbn [flows]; rewrite Eb; reflexivity).
  destruct first; cbn [when op] in *.
  - pose proof (df_q _ _ _ _ _ _ _ H5) as (_ & Q2 & _). destruct (Q2 Eb) as (_ & F0 & ->). cbn [andb] in H2. pose proof (df_in _ _ _ _ _ _ _ H5) as Hp. destruct r as [|p r]; [contradiction Hp|].
    pose proof (flows_zero _ _ F0) as Bp. destruct (df_np _ _ _ _ _ _ _ H5) as (k & Hnp & Hk & _). assert (k = YNo) as -> by (apply Hk; reflexivity). assert (Er : rel false (p :: r) = p :: r) by (destruct p; reflexivity). rewrite Er in Hnp.
    change (em_whitespace (mv x y w i c)) with w in Hnp. pose proof (df_ws _ _ _ _ _ _ _ H5 F0 eq_refl) as Hws. change (w = true -> i = true) in Hws.
    pose proof (df_line _ _ _ _ _ _ _ H5 F0 eq_refl) as Hln. change (i = true -> lal ls = true /\ x = (em_indent c + 1)%Z /\ Z.of_N (lcol ls) = x /\ w = (em_indent c <? 0)%Z) in Hln.
    change (em_indent (mv x y w i c)) with (em_indent c) in H4. change (em_indents (mv x y w i c)) with (em_indents c) in H4.
    pose proof (ind_top _ _ _ _ H4) as Ht. cbv iota in Ht. rewrite Bp in Ht. pose proof (ind_low _ _ _ _ H4) as Hlow. pose proof (df_sk _ _ _ _ _ _ _ H5) as Hsk.
    apply W_seq, W_increase. cbn [app]. set (j := new_indent false il (em_indent c) (em_best_indent c)). set (c1 := set_em_indent j _).
    assert (Hj : (0 <= j <= em_indent c + 10)%Z /\ (LayItems.top li <= j)%Z /\ ((LayItems.top li <? j)%Z = own f) /\ (i = true -> j = (x + Z.of_nat (Z.to_nat (j - x)))%Z /\ (w = true <-> Z.to_nat (j - x) = O)) /\ ind_ok (f :: p :: r) j (em_indent c :: em_indents c) (rolled li (Z.to_N j))).
    { destruct G as (_ & G2 & _). specialize (Hil eq_refl). rewrite Ht. unfold rolled. rewrite Ht. destruct f as [| |[]|[]|[]]; try contradiction Bf; cbn [own].
      - change (em_mapping_context c && negb i = false) in Hsk. rewrite Hsk in Hil. subst il. unfold new_indent in j. assert (J : (em_indent c < j)%Z /\ (0 <= j <= em_indent c + 10)%Z /\ j = if (em_indent c <? 0)%Z then 0%Z else (em_indent c + em_best_indent c)%Z) by (subst j; destruct (em_indent c <? 0)%Z eqn:E0; lia).
        clearbody j. destruct J as (J1 & J2 & J3). split; [exact J2|]. split; [lia|]. split; [lia|]. split; [intros Ei; destruct (Hln Ei) as (_ & Hx & _ & Hw); rewrite Hw; destruct (em_indent c <? 0)%Z eqn:E0; lia|].
        replace (em_indent c <? Z.of_N (Z.to_N j))%Z with true by lia. apply IO_block; [exact Logic.I|exact Bp|exact Hp|lia|exact H4].
      - destruct Hsk as (K1 & K2 & p' & r' & [= <- <-] & K3). change (i = false) in K2. change (em_mapping_context c = true) in K1. rewrite K1, K2 in Hil. cbn [negb andb] in Hil. subst il i.
        assert (P0 : (0 <= em_indent c)%Z) by (pose proof (ind_pos _ _ _ _ _ H4) as P; destruct K3 as [-> | ->]; exact P). assert (j = em_indent c) as -> by (subst j; unfold new_indent; destruct (em_indent c <? 0)%Z eqn:E0; [lia|reflexivity]).
        split; [lia|]. split; [lia|]. split; [lia|]. split; [discriminate|]. replace (em_indent c <? Z.of_N (Z.to_N (em_indent c)))%Z with false by lia. apply IO_ind; [exact K3|exact H4].
      - subst il. unfold new_indent in j. assert (J : (em_indent c < j)%Z /\ (0 <= j <= em_indent c + 10)%Z /\ j = if (em_indent c <? 0)%Z then 0%Z else (em_indent c + em_best_indent c)%Z) by (subst j; destruct (em_indent c <? 0)%Z eqn:E0; lia).
        clearbody j. destruct J as (J1 & J2 & J3). split; [exact J2|]. split; [lia|]. split; [lia|]. split; [intros Ei; destruct (Hln Ei) as (_ & Hx & _ & Hw); rewrite Hw; destruct (em_indent c <? 0)%Z eqn:E0; lia|].
        replace (em_indent c <? Z.of_N (Z.to_N j))%Z with true by lia. apply IO_block; [exact Logic.I|exact Bp|exact Hp|lia|exact H4]. }
    destruct Hj as (J1 & J2 & J3 & J4 & J5).
    assert (Fin : forall y' ls', Start li (Z.to_N j) ls' -> W rest (mv j y' true true c1) ls' Q).
    { intros y' ls' St. replace j with (Z.of_N (Z.to_N j)) at 1 by lia. apply (Hq y' c1 ls' li (Z.to_N j)); [exact G|constructor; reflexivity|exact H2| | |exact J5|exact St|replace (Z.of_N (Z.to_N j)) with j by lia; exact J3|].
      - change (em_flow_level c1) with (em_flow_level (mv x y w i c)). rewrite H3, F0, Ff. reflexivity.
      - change (em_indent c1) with j. lia.
      - cbn [length] in Hb, Hlow. lia. }
    clearbody j. apply W_seq. destruct i.
    + destruct (J4 eq_refl) as [J6 J7]. destruct (Hln eq_refl) as (L1 & L2 & L3 & L4).
      destruct (NP_start (Z.to_nat (j - x)) w (p :: r) li ls Hnp F0 L1 J7) as (ls' & R & St & P1 & P2).
      eapply (W_here lf c1 x y w (Z.to_nat (j - x))); [exact (proj1 J1)|exact J6|apply J7|exact R|exact P1|exact P2|]. cbn [app]. apply Fin. replace (Z.to_N j) with (lcol ls + N.of_nat (Z.to_nat (j - x))) by lia. exact St.
    + assert (w = false) as -> by (destruct w; [discriminate (Hws eq_refl)|reflexivity]). destruct (NP_Bk _ _ _ Hnp F0) as (B & P & N0).
      destruct (Bk_break lf Hlf (Z.to_nat j) li ls B (unlined_break _ (settled_un _ N0))) as (ls' & R & St & _); [right; split; [exact P|]; split; [lia|exact N0]|].
      eapply (W_break lf c1); [apply G|exact R|unfold pend; rewrite (proj2 (bk_key _ _ B)); reflexivity|unfold pend; rewrite (proj2 (st_key _ _ _ St)); reflexivity|]. intros y'. cbn [app].
      change (em_indent c1) with j. replace (Z.max j 0) with j by lia. apply Fin. replace (Z.to_N j) with (N.of_nat (Z.to_nat j)) by lia. exact St.
  - assert (X : sb = false /\ Bk li ls /\ after w i x ls).
    { destruct f as [| |[]|[]|[]]; try contradiction Bf; cbn [DN blk] in H5; unfold DNn in H5; destruct sb; try (destruct H5 as (E1 & E2 & E3); contradiction E3); auto. }
    destruct X as (-> & B & Ha). change (em_indent (mv x y w i c)) with (em_indent c) in H4. change (em_indents (mv x y w i c)) with (em_indents c) in H4.
    pose proof (ind_top _ _ _ _ H4) as Ht. cbv iota in Ht. rewrite Eb in Ht. pose proof (ind_low _ _ _ _ H4) as Hlow. pose proof (ind_pos _ _ _ _ _ H4) as Hpos.
    assert (P0 : (0 <= em_indent c)%Z) by (destruct f as [| |[]|[]|[]]; try contradiction Bf; exact Hpos).
    apply W_seq, W_ret. cbn [app]. apply W_seq. eapply (W_line u li); [exact G|exact B|exact Ha|exact Ht|exact P0|]. intros y' ls' St So. cbn [app].
    replace (em_indent c) with (Z.of_N (N.of_nat (Z.to_nat (em_indent c)))) at 1 by lia.
    eapply Hq; [exact G|apply stay_refl|exact H2|exact H3|lia| |exact St|cbn [andb]; lia|cbn [length] in Hb, Hlow; lia].
    unfold rolled. replace (LayItems.top li <? Z.of_N (N.of_nat (Z.to_nat (em_indent c))))%Z with false by lia. exact H4.
Qed.
Lemma W_bend f r sb x y w i c ls (Q : post) : bframe f -> D (f :: r) false sb (e :: q) (mv x y w i c) ls -> (match f with LSeq _ => e_data e = EvSequenceEnd | _ => e_data e = EvMappingEnd end) ->
  upto (f :: r) false c Q -> W (pop_indent ;; pop_estate) (mv x y w i c) ls Q.
Proof.
  intros Bf (H1 & H2 & H3 & li & H4 & H5) He Hq. cbn [op] in *.
  assert (X : sb = false /\ Bk li ls /\ after w i x ls).
  { destruct f as [| |[]|[]|[]]; try contradiction Bf; cbn [DN blk] in H5; unfold DNn in H5; destruct sb; try (destruct H5 as (E1 & E2 & E3); contradiction E3); auto. }
  destruct X as (-> & B & Ha). change (em_indent (mv x y w i c)) with (em_indent c) in H4. change (em_indents (mv x y w i c)) with (em_indents c) in H4.
  assert (K : forall p r' j l li' ls' tk, r = p :: r' -> em_indents c = j :: l -> ind_ok (p :: r') j l li' -> inner_root p -> blk p = true -> Bk li' ls' -> after w i x ls' -> (match f with LSeq k => seq_end k false = Some tk | _ => map_end true false = Some tk end) ->
     W (pop_indent ;; pop_estate) (mv x y w i c) ls' (fun t c' l' => Q (tk ++ t) c' l')).
  { intros p r' j l li' ls' tk Er Ei Io Ip Ebp B' Ha' Htk. apply W_seq. eapply W_pop_indent; [exact Ei|]. cbn [app]. eapply W_pop; [change (em_states (set_em_indent j (set_em_indents l c))) with (em_states (mv x y w i c)); rewrite H2, Er; reflexivity|].
    cbn [andb]. rewrite app_nil_r. apply (Hq _ _ _ (p :: r') false false).
    - rewrite Er. destruct f as [| |k|[]|]; try contradiction Bf; rewrite He; [apply L_seq_end|apply L_map_end]; exact Htk.
    - constructor; reflexivity.
    - split; [reflexivity|]. split; [cbn [andb]; symmetry; apply sts_map|]. split; [|exists li'; split; [exact Io|]].
      + change (em_flow_level (mv x y w i c) = Z.of_N (flows (op p r' false))). rewrite H3. cbn [op flows]. rewrite Ebp. destruct f as [| |[]|[]|[]]; try contradiction Bf; reflexivity.
      + assert (Y : Bk li' ls' /\ after w i x ls') by auto. destruct p as [| |[]|[]|[]]; try contradiction Ip; try discriminate Ebp; exact Y. }
  destruct (ind_block f r _ _ _ Bf H4) as (p & r' & j & l & li' & Er & Ei & Io & Ip & Bp & Hli). destruct (own f) eqn:Eo.
  - destruct Hli as [Hli Hj]. destruct (li_pop li ls (Z.to_N (em_indent c)) li' B Hli) as (ls' & E & B' & Ha').
    { pose proof (ind_top _ _ _ _ Io) as T. cbv iota in T. rewrite Bp in T. apply ind_low in Io. lia. }
    eapply (W_pre lf [IPop] _ _ ls ls' [TBlockEnd] [TBlockEnd]); [reflexivity|constructor; [exact Logic.I|constructor]|cbn [LayScan.lrun]; rewrite E; reflexivity|rewrite (pend_no _ (bk_key _ _ B)), (pend_no _ (bk_key _ _ B')); reflexivity|].
    eapply K; [exact Er|exact Ei|exact Io|exact Ip|exact Bp|exact B'|apply Ha', Ha|]. destruct f as [| |[]|[]|[]]; try contradiction; try discriminate; reflexivity.
  - subst li'. apply (K p r' j l li ls [] Er Ei Io Ip Bp B Ha). destruct f as [| |[]|[]|[]]; try contradiction; try discriminate; reflexivity.
Qed.
Lemma W_bseq k r first sb x y w i c ls (Q : post) : k <> SkFlow -> good u c -> em_events c = q -> D (LSeq k :: r) first sb (e :: q) (mv x y w i c) ls -> 10 * N.of_nat (length (LSeq k :: r)) <= 2147483647 -> (e_data e = EvSequenceEnd \/ EmitGrammar.is_node (e_data e) = true) ->
  upto (LSeq k :: r) first c Q -> W (emit_block_sequence_item e first an) (mv x y w i c) ls Q.
Proof.
  intros Hk G Hev HD Hb He Hq. assert (Bf : bframe (LSeq k)) by (destruct k; [congruence|exact Logic.I|exact Logic.I]). unfold emit_block_sequence_item. apply W_get; [reflexivity|]. destruct He as [He|Hn].
  - assert (first = false) as ->.
    { destruct first; [|reflexivity]. destruct HD as (_ & _ & _ & li & _ & HD). destruct (proj1 (proj2 (df_q _ _ _ _ _ _ _ HD))) as (F & _); [destruct k; [congruence|reflexivity|reflexivity]|]. cbn [head_end] in F. rewrite He in F. discriminate F. }
    rewrite He. apply W_seq, W_ret. exact (W_bend (LSeq k) r sb x y w i c ls Q Bf HD He Hq).
  - rewrite (no_end (LSeq k) _ (pop_indent ;; pop_estate) _ Hn). eapply (W_block_line (LSeq k) r first sb); [exact Bf|exact G|exact HD|exact Hb|intros _; reflexivity|].
    intros y1 c1 l1 li n G1 S1 E1 F1 I1 I2 St Et Hn1.
    assert (Eb : blk (LSeq k) = true) by (destruct k; [congruence|reflexivity|reflexivity]).
    destruct (Start_dash lf (LSeq k) r li n l1 St Hn1 Eb) as (l2 & E2 & N2 & P2 & L2 & C2). rewrite Et in E2.
    apply W_seq. eapply (W_indicator lf IDash); [reflexivity|exact Logic.I|cbn [andb negb sp app LayScan.lrun]; rewrite E2; reflexivity|rewrite (pend_no _ (st_key _ _ _ St)), P2; cbn [option_bind app]; reflexivity|].
    cbn [andb negb length]. rewrite !app_nil_r.
    replace EBlockSequenceItem with (st_of (next_frame (LSeq k)) false false) by (destruct k; [congruence|reflexivity|reflexivity]).
    eapply (W_child (LSeq k) r first false _ c false true false (rolled li n) YNo _ y1 false true c1 l2 (fun t c' ls' => Q t c' ls'));
      [discriminate|destruct k; [congruence|destruct first; reflexivity|destruct first; reflexivity]|exact Hn|exact G1|exact S1|exact Hev|exact E1|exact F1|exact I2|exact N2|reflexivity|discriminate|discriminate|discriminate|discriminate| |exact Hq].
    intros _ _ _. split; [exact L2|]. split; [lia|]. split; [lia|]. symmetry. lia.
Qed.
Lemma W_bkey r first sb x y w i c ls (Q : post) : good u c -> em_events c = q -> D (LKey true :: r) first sb (e :: q) (mv x y w i c) ls -> 10 * N.of_nat (length (LKey true :: r)) <= 2147483647 -> (e_data e = EvMappingEnd \/ EmitGrammar.is_node (e_data e) = true) ->
  upto (LKey true :: r) first c Q -> W (emit_block_mapping_key e first an) (mv x y w i c) ls Q.
Proof.
  intros G Hev HD Hb He Hq. unfold emit_block_mapping_key. destruct He as [He|Hn].
  - assert (first = false) as ->.
    { destruct first; [|reflexivity]. destruct HD as (_ & _ & _ & li & _ & HD). destruct (proj1 (proj2 (df_q _ _ _ _ _ _ _ HD))) as (F & _); [reflexivity|]. cbn [head_end] in F. rewrite He in F. discriminate F. }
    rewrite He. apply W_seq, W_ret. exact (W_bend (LKey true) r sb x y w i c ls Q Logic.I HD He Hq).
  - rewrite (no_end (LKey true) _ (pop_indent ;; pop_estate) _ Hn). eapply (W_block_line (LKey true) r first sb); [exact Logic.I|exact G|exact HD|exact Hb|intros _; reflexivity|].
    intros y1 c1 l1 li n G1 S1 E1 F1 I1 I2 St Et Hn1. rewrite andb_true_r in Et.
    apply (W_val lf _ (key_fits (e_data e) an c1)).
    { intros s Hs. rewrite (check_val e an (all_tds ds) (mv (Z.of_N n) y1 true true c1) s); [reflexivity| |exact Hs]. change (em_unicode (mv (Z.of_N n) y1 true true c1)) with (em_unicode c1). rewrite (proj2 (proj2 (proj2 G1))). exact Han. }
    destruct (key_fits (e_data e) an c1) eqn:Ek.
    + destruct (Start_mark lf (LKey true) r li n l1 St Hn1 eq_refl) as (l2 & E2 & N2 & P1 & P2). rewrite Et in P2.
      eapply (W_pre lf [IMark] _ _ l1 l2 [] (llead (LKey true) first)); [reflexivity|constructor; [exact Logic.I|constructor]|cbn [LayScan.lrun]; rewrite E2; reflexivity|rewrite P1, P2; reflexivity|].
      eapply (W_child (LKey true) r first true (llead (LKey true) first) c false false true (rolled li n) (YSoon 1024) _ y1 true true c1 l2);
        [discriminate|reflexivity|exact Hn|exact G1|exact S1|exact Hev|exact E1|exact F1|exact (ind_next _ _ _ _ _ I2)|exact N2|reflexivity|intros _; split; [exact Ek|exists true; reflexivity]|discriminate|discriminate|intros _; exact Logic.I|discriminate|exact Hq].
    + destruct (Start_key lf (LVal true) r li n l1 St Hn1 eq_refl) as (l2 & E2 & N2 & P2 & L2 & C2). rewrite Et in E2.
      apply W_seq. eapply (W_indicator lf IKey); [reflexivity|exact Logic.I|cbn [andb negb sp app LayScan.lrun]; rewrite E2; reflexivity|rewrite (pend_no _ (st_key _ _ _ St)), P2; cbn [option_bind app]; reflexivity|].
      cbn [andb negb length]. rewrite !app_nil_r.
      eapply (W_child (LKey true) r first false (llead (LKey true) first) c false false true (rolled li n) YNo _ y1 false true c1 l2 (fun t c' ls' => Q t c' ls'));
        [discriminate|reflexivity|exact Hn|exact G1|exact S1|exact Hev|exact E1|exact F1|exact (ind_next _ _ _ _ _ I2)|exact N2|reflexivity|discriminate|discriminate|discriminate|intros _; exact Logic.I| |exact Hq].
      intros _ _ _. split; [exact L2|]. split; [lia|]. split; [lia|]. symmetry. lia.
Qed.
Lemma W_bval r sb x y w i c ls (Q : post) : good u c -> em_events c = q -> D (LVal true :: r) false sb (e :: q) (mv x y w i c) ls -> EmitGrammar.is_node (e_data e) = true ->
  upto (LVal true :: r) false c Q -> W (emit_block_mapping_value e sb an) (mv x y w i c) ls Q.
Proof.
  intros G Hev (H1 & H2 & H3 & li & H4 & H5) Hn Hq. cbn [op DN] in *. unfold DNn in H5.
  change (em_indent (mv x y w i c)) with (em_indent c) in H4. change (em_indents (mv x y w i c)) with (em_indents c) in H4.
  unfold emit_block_mapping_value. apply W_seq. destruct sb.
  - destruct H5 as (Ew & Ei & n & Hn1 & A & Gv & T). change (w = false) in Ew. change (i = false) in Ei. subst w i. destruct (At_simple lf (LKey true :: r) (LKey true :: r) li ls n A Hn1 Gv T eq_refl) as (l1 & E1 & A1 & L1 & N1 & T1).
    { intros s0 r0 B. exact (below_off _ _ _ B). }
    eapply (W_indicator lf IValue); [reflexivity|exact Logic.I|cbn [andb negb sp app LayScan.lrun]; rewrite E1; reflexivity|rewrite (pend_at _ _ _ _ A), (pend_at _ _ _ _ A1); reflexivity|].
    cbn [andb]. eapply (W_child (LVal true) r false false [TValue] c false false true li YNo _ y false false c l1 (fun t c' ls' => Q t c' ls'));
      [discriminate|reflexivity|exact Hn|exact G|apply stay_refl|exact Hev|exact H2|exact H3|exact (ind_next _ _ _ _ _ H4)| |reflexivity|discriminate|discriminate|discriminate|intros _; exact Logic.I|discriminate|exact Hq].
    apply At_NP; [exact A1|exact L1|rewrite N1; exact Logic.I|exact T1].
  - cbn [blk] in H5. destruct H5 as [B Ha]. change (after w i x ls) in Ha. pose proof (ind_top _ _ _ _ H4) as Ht. cbv iota in Ht. cbn [blk] in Ht. pose proof (ind_pos _ _ _ _ _ H4) as P0. cbv iota in P0.
    apply W_seq. eapply (W_line u li); [exact G|exact B|exact Ha|exact Ht|exact P0|]. intros y1 l1 St So. cbn [app].
    destruct (Start_value lf (LKey true) r li _ l1 St So ltac:(lia) eq_refl) as (l2 & E2 & N2 & P2 & L2 & C2).
    eapply (W_indicator lf IValue); [reflexivity|exact Logic.I|cbn [andb negb sp app LayScan.lrun]; rewrite E2; reflexivity|rewrite (pend_no _ (st_key _ _ _ St)), P2; cbn [option_bind app]; reflexivity|].
    cbn [andb negb length].
    eapply (W_child (LVal true) r false false [TValue] c false false true li YNo _ y1 false true c l2 (fun t c' ls' => Q t c' ls'));
      [discriminate|reflexivity|exact Hn|exact G|apply stay_refl|exact Hev|exact H2|exact H3|exact (ind_next _ _ _ _ _ H4)|exact N2|reflexivity|discriminate|discriminate|discriminate|intros _; exact Logic.I| |exact Hq].
    intros _ _ _. split; [exact L2|]. split; [lia|]. split; [lia|]. symmetry. lia.
Qed.
Lemma ls0_place : NP true [LDone] [] ls0 YNo.
Proof. constructor; [reflexivity|reflexivity|exists SOff; reflexivity|reflexivity|split; reflexivity|intros _; cbn; lia|left; reflexivity|intros _ _; cbn; lia|intros _; exact Logic.I]. Qed.
Lemma W_root b sb x y w i c ls (Q : post) : good u c -> em_events c = q -> D [LRoot b] false sb (e :: q) (mv x y w i c) ls -> EmitGrammar.is_node (e_data e) = true -> (b = true -> ~ blank_scalar (e_data e)) ->
  upto [LRoot b] false c Q -> W (emit_document_content e an) (mv x y w i c) ls Q.
Proof.
  intros G Hev (H1 & H2 & H3 & li & H4 & H5) Hn Hbs Hq. cbn [op] in *.
  change (em_indent (mv x y w i c)) with (em_indent c) in H4. change (em_indents (mv x y w i c)) with (em_indents c) in H4. pose proof (ind_next _ _ _ _ _ H4) as H6. cbn [next_frame] in H6.
  assert (li = [] /\ em_indent c = (-1)%Z) as [-> Ei] by (inversion H4; auto).
  unfold emit_document_content. destruct b; cbn [DN] in H5.
  - destruct H5 as (-> & _ & -> & Ex & Ew & Ein). change (x = 0%Z) in Ex. change (w = true) in Ew. change (i = true) in Ein. subst x w i.
    eapply (W_child (LRoot true) [] false false [] c true false false [] YNo 0 y true true c ls0 Q);
      [discriminate|reflexivity|exact Hn|exact G|apply stay_refl|exact Hev|exact H2|exact H3|exact H6|exact ls0_place|reflexivity|discriminate|intros _ _ _; split; [apply Hbs; reflexivity|reflexivity]|reflexivity|discriminate| |exact Hq].
    intros _ _ _. rewrite Ei. auto.
  - destruct H5 as (-> & _ & Hnp & Ew & Ein). change (w = false) in Ew. change (i = false) in Ein. subst w i.
    eapply (W_child (LRoot false) [] false false [] c true false false [] YNo x y false false c ls Q);
      [discriminate|reflexivity|exact Hn|exact G|apply stay_refl|exact Hev|exact H2|exact H3|exact H6|exact Hnp|reflexivity|discriminate|discriminate|discriminate|discriminate|discriminate|exact Hq].
Qed.
End frames.
End lay.
