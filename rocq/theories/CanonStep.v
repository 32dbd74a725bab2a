(** CanonStep.v -- one event in canonical mode. *)
From Coq Require Import Lia ZifyBool ZifyNat ZifyN Bool.
From Verif Require Import Base Utf Chars State Reader Scanner Wp ScanFacts RoundScan EState Emitter Document Api EmitText EmitScalar EmitQuoted Spec_Events EventFacts Spec_EmitNames EmitGrammar CanonLex CanonBody CanonItems CanonEmit CanonToks.
Open Scope N_scope.

(** What the round trip needs of the tags and scalars of an event. *)
Definition tag_fine (tds : list tag_directive) (t : str) : Prop :=
  ascii t /\ forall td x, In td tds -> t = td_prefix td ++ x -> shorthand x.
Definition value_ok (d : event_data) : Prop := match d with EvScalar _ _ v _ _ _ => Forall (fun ch : char => is_scalar ch = true) v | _ => True end.
Definition fine (tds : list tag_directive) (d : event_data) : Prop := valid_event true d /\ value_ok d /\ all (tag_fine tds) (tag_in d).
Record keep (c c' : est) : Prop := Keep {
  k_can : em_canonical c' = em_canonical c; k_best : em_best_indent c' = em_best_indent c; k_lb : em_line_break c' = em_line_break c;
  k_ev : em_events c' = em_events c; k_tds : em_tag_directives c' = em_tag_directives c; k_oe : em_open_ended c' = em_open_ended c;
  k_in : em_indent c' = em_indent c; k_ins : em_indents c' = em_indents c }.
Lemma keep_refl c : keep c c. Proof. constructor; reflexivity. Qed.
Definition rdy (w : bool) (ls : lstate) : Prop := w = true -> ln ls = Free.
Lemma rdy_free w ls : rdy w ls -> ln (spaced (negb w) ls) = Free.
Proof. destruct w; intros H; [exact (H eq_refl)|reflexivity]. Qed.
Lemma rdy_lv b ls : lv (spaced b ls) = lv ls. Proof. destruct b; reflexivity. Qed.

Ltac keeps_core := let H := fresh in intros H; apply is_core_iff in H; apply is_core_iff; exact H.
Section canon.
Variable lf : str.
Hypothesis Hlf : lf_ok lf.
Notation W := (W lf).
Lemma W_anchor_opt a x y w i c ls (Q : list token_data -> est -> lstate -> Prop) : all valid_name a -> rdy w ls ->
  (forall x' w' i' ls', rdy w' ls' -> lv ls' = lv ls -> Q (anchor_toks a) (mv x' y w' i' c) ls') -> W (process_anchor (option_map (fun a => (a, false)) a)) (mv x y w i c) ls Q.
Proof.
  intros Ha Hr Hq. destruct a as [a|]; cbn [option_map]; [|apply W_ret, Hq; auto].
  eapply (W_name lf a false); [exact Ha|cbn [lstep]; rewrite (rdy_free _ _ Hr); reflexivity|]. intros x'. apply Hq; [intros [=]|]. apply rdy_lv.
Qed.
Lemma W_tag_opt tds t o x y w i c ls (Q : list token_data -> est -> lstate -> Prop) : tag_an tds t o -> all (fun t => t <> []) t -> all (tag_fine tds) t -> (forall td, In td tds -> valid_handle (td_handle td)) -> rdy w ls ->
  (forall tk x' w' i' ls', tag_toks tds t tk -> rdy w' ls' -> lv ls' = lv ls -> Q tk (mv x' y w' i' c) ls') -> W (process_tag o) (mv x y w i c) ls Q.
Proof.
  intros Ho Hn Hf Hh Hr Hq. destruct t as [t|], o as [[h s]|]; try contradiction Ho; [|cbn [process_tag]; apply W_ret, Hq; [constructor|auto..]].
  cbn [all] in Hn, Hf. destruct Hf as [Ha Hs]. destruct Ho as [[-> ->]|(td & Htd & -> & -> & Hx)].
  - eapply (W_tag lf [] t); [split; assumption|intros ->; destruct (Hn eq_refl)|cbn [lstep]; rewrite (rdy_free _ _ Hr); reflexivity|].
    intros x'. apply Hq; [constructor|intros [=]|apply rdy_lv].
  - pose proof (Hh td Htd) as Hv. assert (E : form_of (td_handle td) s = FShort (td_handle td) s).
    { unfold form_of. replace (is_empty (td_handle td)) with false by (destruct Hv as [-> |(? & -> & _)]; reflexivity). destruct s; [congruence|reflexivity]. }
    eapply (W_tag lf (td_handle td) s); rewrite ?E.
    + split; [exact Hv|]. split; [exact Hx|]. split; [apply Forall_app in Ha; apply Ha|]. eapply Hs; [exact Htd|reflexivity].
    + congruence.
    + cbn [lstep]; rewrite (rdy_free _ _ Hr); reflexivity.
    + intros x'. apply Hq; [constructor; assumption|intros [=]|apply rdy_lv].
Qed.
Lemma bang_an (x : str * str) : x = (lit "!", []) -> form_of (fst x) (snd x) = FBang. Proof. intros ->. reflexivity. Qed.
Lemma W_bang tds x y w i c ls (Q : list token_data -> est -> lstate -> Prop) : rdy w ls ->
  (forall tk x' w' i' ls', tag_toks tds (Some (lit "!")) tk -> rdy w' ls' -> lv ls' = lv ls -> Q tk (mv x' y w' i' c) ls') -> W (process_tag (Some (lit "!", []))) (mv x y w i c) ls Q.
Proof.
  intros Hr Hq. eapply (W_tag lf (lit "!") []); [exact I|reflexivity|cbn [lstep]; rewrite (rdy_free _ _ Hr); reflexivity|].
  intros x'. apply Hq; [constructor|intros [=]|apply rdy_lv].
Qed.
Lemma canonical_style c pi sty sa b : em_canonical c = true -> choose_style c pi sty sa b = SDouble.
Proof. intros H. unfold choose_style. rewrite H. destruct (em_simple_key_context c && sa_multiline sa); reflexivity. Qed.

Definition first_state (d : event_data) : estate := match d with EvMappingStart _ _ _ _ => EFlowMappingFirstKey | _ => EFlowSequenceFirstItem end.
Definition node_out (d : event_data) (a : estate) (rs : list estate) (c' : est) (ls' : lstate) : Prop :=
  if opens d then em_state c' = first_state d /\ em_states c' = a :: rs /\ rdy (em_whitespace c') ls'
  else em_state c' = a /\ em_states c' = rs /\ em_indention c' = false /\ ln ls' <> Blank.
Lemma W_node e (b1 b2 b3 : bool) an tds x y w i c ls a rs (Q : list token_data -> est -> lstate -> Prop) :
  fine tds (e_data e) -> is_node (e_data e) = true -> an_ok tds (e_data e) an -> (forall td, In td tds -> valid_handle (td_handle td)) ->
  em_canonical c = true -> (2 <= em_best_indent c)%Z -> break_chars (em_line_break c) = lf -> em_states c = a :: rs -> rdy w ls ->
  (forall tk c' ls', node_toks tds (e_data e) tk -> keep c c' -> lv ls' = lv ls -> node_out (e_data e) a rs c' ls' -> Q tk c' ls') ->
  W (emit_node e b1 b2 b3 false an) (mv x y w i c) ls Q.
Proof.
  intros (([Hvn Hvt] & _ & Hfl) & Hval & Htf) Hn Han Hh Hc Hb Hl Hs Hr Hq. unfold emit_node. apply W_seq, W_set; [inner|keeps_core|]. cbn [app].
  set (c0 := set_em_simple_key_context false (set_em_mapping_context b3 (set_em_sequence_context b2 (set_em_root_context b1 c)))).
  change (W (match e_data e with
    | EvAlias _ => emit_alias an | EvScalar _ _ _ pi qi st => emit_scalar pi qi st an | EvSequenceStart _ _ _ st => emit_sequence_start (e_data e) st an
    | EvMappingStart _ _ _ st => emit_mapping_start (e_data e) st an | _ => emitter_error "expected SCALAR, SEQUENCE-START, MAPPING-START, or ALIAS" end) (mv x y w i c0) ls (fun t' c2 ls2 => Q t' c2 ls2)).
  assert (K0 : keep c c0) by (constructor; reflexivity). assert (Hs0 : em_states c0 = a :: rs) by exact Hs.
  assert (Hk0 : em_simple_key_context c0 = false) by reflexivity. clearbody c0.
  destruct (e_data e) as [en| |vd tdl im|im|a0|a0 t v pi qi sty|a0 t im sty| |a0 t im sty|]; try discriminate Hn; cbn [an_ok anchor_in written_tag orb value_ok tag_in] in *.
  - (* alias *)
    unfold emit_alias. rewrite Han. apply W_seq. eapply (W_name lf a0 true); [exact Hvn|cbn [lstep]; rewrite (rdy_free _ _ Hr); reflexivity|]. intros x'.
    apply W_get; [reflexivity|]. change (em_simple_key_context (mv x' y false false c0)) with (em_simple_key_context c0). rewrite Hk0. cbn [when].
    apply W_seq, W_ret. cbn [app]. eapply W_pop; [exact Hs0|]. cbn [app]. apply Hq; [constructor|destruct K0; constructor; assumption|apply rdy_lv|].
    split; [reflexivity|]. split; [reflexivity|]. split; [reflexivity|]. discriminate.
  - (* scalar *)
    destruct Han as (Ha & Ht & sa & Hsa & Ev). unfold emit_scalar. rewrite Hsa, Ha, Ev.
    apply (W_val lf _ (SDouble, match t with None => if qi then None else Some (lit "!", []) | Some _ => an_tag an end)).
    { intros s Es. unfold select_scalar_style. rewrite (EmitSession.b_get _ s).
      assert (Ec : em_canonical s = true). { change (em_canonical (core s) = true). rewrite Es. change (em_canonical c0 = true). rewrite (k_can _ _ K0). exact Hc. }
      cbv zeta. rewrite (canonical_style s _ _ _ _ Ec).
      destruct t as [t|], (an_tag an) as [[h z]|]; try contradiction Ht; cbn [andb]; [reflexivity|]. destruct qi; cbn [andb negb]; [rewrite andb_false_r; reflexivity|].
      destruct pi; [reflexivity|]. destruct Hfl; discriminate. }
    apply W_seq. apply W_anchor_opt; [exact Hvn|exact Hr|]. intros x1 w1 i1 ls1 R1 L1. cbv beta.
    assert (T : forall Q' : list token_data -> est -> lstate -> Prop, (forall tk x' w' i' ls', tag_toks tds (written t qi) tk -> rdy w' ls' -> lv ls' = lv ls -> Q' tk (mv x' y w' i' c0) ls') ->
      W (process_tag (match t with None => if qi then None else Some (lit "!", []) | Some _ => an_tag an end)) (mv x1 y w1 i1 c0) ls1 Q').
    { intros Q' HQ'. rewrite <- L1 in HQ'. destruct t as [t|]; cbn [written] in HQ'.
      - eapply W_tag_opt; [exact Ht|exact Hvt|exact Htf|exact Hh|exact R1|exact HQ'].
      - destruct qi; [cbn [process_tag]; apply W_ret, HQ'; [constructor|exact R1|reflexivity]|]. apply (W_bang tds); [exact R1|exact HQ']. }
    apply W_seq, T. intros tk x2 w2 i2 ls2 Htk R2 L2. cbv beta. apply W_seq, W_increase; [rewrite (k_best _ _ K0); exact Hb|]. intros j Hj. cbv beta. cbn [app].
    apply W_seq. unfold process_scalar. apply W_get; [reflexivity|]. cbv zeta. set (c1 := set_em_indent _ _).
    change (em_simple_key_context (mv x2 y w2 i2 c1)) with (em_simple_key_context c0). rewrite Hk0. cbn [negb].
    eapply W_quoted; [exact Hval|exact (Z.le_trans 1 2 j ltac:(lia) Hj)|change (em_line_break c1) with (em_line_break c0); rewrite (k_lb _ _ K0); exact Hl|cbn [lstep]; rewrite (rdy_free _ _ R2); reflexivity|].
    intros x3 y3. cbv beta. apply W_seq. eapply W_pop_indent; [reflexivity|]. cbv beta. eapply W_pop; [exact Hs0|]. cbv beta. rewrite !app_nil_r.
    apply Hq; [constructor; exact Htk|destruct K0; constructor; assumption|cbn [lv]; rewrite rdy_lv; exact L2|].
    split; [reflexivity|]. split; [reflexivity|]. split; [reflexivity|]. discriminate.
  - destruct Han as (Ha & Ht). unfold emit_sequence_start. rewrite Ha.
    apply W_seq. apply W_anchor_opt; [exact Hvn|exact Hr|]. intros x1 w1 i1 ls1 R1 L1. cbv beta.
    apply W_seq. eapply W_tag_opt; [exact Ht|exact Hvt|exact Htf|exact Hh|exact R1|]. intros tk x2 w2 i2 ls2 Htk R2 L2. cbv beta.
    apply W_get; [reflexivity|]. change (em_canonical (mv x2 y w2 i2 c0)) with (em_canonical c0). rewrite (k_can _ _ K0), Hc, orb_true_r. cbn [orb].
    apply W_goto. rewrite !app_nil_r. apply Hq; [constructor; exact Htk|destruct K0; constructor; assumption|congruence|]. split; [reflexivity|]. split; [exact Hs0|exact R2].
  - destruct Han as (Ha & Ht). unfold emit_mapping_start. rewrite Ha.
    apply W_seq. apply W_anchor_opt; [exact Hvn|exact Hr|]. intros x1 w1 i1 ls1 R1 L1. cbv beta.
    apply W_seq. eapply W_tag_opt; [exact Ht|exact Hvt|exact Htf|exact Hh|exact R1|]. intros tk x2 w2 i2 ls2 Htk R2 L2. cbv beta.
    apply W_get; [reflexivity|]. change (em_canonical (mv x2 y w2 i2 c0)) with (em_canonical c0). rewrite (k_can _ _ K0), Hc, orb_true_r. cbn [orb].
    apply W_goto. rewrite !app_nil_r. apply Hq; [constructor; exact Htk|destruct K0; constructor; assumption|congruence|]. split; [reflexivity|]. split; [exact Hs0|exact R2].
Qed.

(** ** The invariant *)
Record stay (c c' : est) : Prop := Stay {
  s_can : em_canonical c' = em_canonical c; s_best : em_best_indent c' = em_best_indent c; s_lb : em_line_break c' = em_line_break c;
  s_ev : em_events c' = em_events c; s_tds : em_tag_directives c' = em_tag_directives c; s_oe : em_open_ended c' = em_open_ended c }.
Lemma keep_stay c c' : keep c c' -> stay c c'. Proof. intros []. constructor; assumption. Qed.
Lemma stay_trans a b c : stay a b -> stay b c -> stay a c. Proof. intros [] []. constructor; congruence. Qed.
Definition st_of (f : frame) (first : bool) : estate :=
  match f with
  | FRoot => EDocumentContent | FDone => EDocumentEnd
  | FSeq => if first then EFlowSequenceFirstItem else EFlowSequenceItem
  | FKey => if first then EFlowMappingFirstKey else EFlowMappingKey
  | FVal => EFlowMappingValue
  end.
Definition nn (fs : list frame) (first : bool) : nat := if first then colls (tl fs) else colls fs.
Inductive ind_ok : nat -> Z -> list Z -> Prop :=
| IO_0 : ind_ok 0 (-1)%Z []
| IO_S n i j l : (2 <= i)%Z -> ind_ok n j l -> ind_ok (S n) i (j :: l).
Definition fresh_line (c : est) (ls : lstate) : Prop :=
  em_column c = 0%Z /\ em_whitespace c = true /\ em_indention c = true /\ lz ls = true /\ ln ls = Free.
Definition D (fs : list frame) (first : bool) (c : est) (ls : lstate) : Prop :=
  match fs with
  | [] => False
  | f :: r => em_state c = st_of f first /\ em_states c = map (fun f => st_of f false) r /\
     ind_ok (nn fs first) (em_indent c) (em_indents c) /\ lv ls = N.of_nat (nn fs first) /\
     match f with FRoot => fresh_line c ls | _ => if first then rdy (em_whitespace c) ls else em_indention c = false /\ ln ls <> Blank end
  end.
Lemma node_D d a rs c c' ls' f' r' : node_out d a rs c' ls' -> keep c c' -> a = st_of f' false -> rs = map (fun f => st_of f false) r' -> f' <> FRoot ->
  ind_ok (colls (f' :: r')) (em_indent c) (em_indents c) -> lv ls' = N.of_nat (colls (f' :: r')) -> D (push d (f' :: r')) (opens d) c' ls'.
Proof.
  intros Ho K -> -> Hf Hi Hv. unfold node_out in Ho. destruct (opens d) eqn:Eo.
  - destruct Ho as (H1 & H2 & H3). destruct d; try discriminate Eo; cbn [push]; (split; [exact H1|]; split; [exact H2|]; split; [rewrite (k_in _ _ K), (k_ins _ _ K); exact Hi|]; split; [exact Hv|exact H3]).
  - assert (push d (f' :: r') = f' :: r') as -> by (destruct d; try discriminate Eo; reflexivity). destruct Ho as (H1 & H2 & H3 & H4). split; [exact H1|]. split; [exact H2|].
    split; [rewrite (k_in _ _ K), (k_ins _ _ K); exact Hi|]. split; [exact Hv|]. destruct f'; try congruence; auto.
Qed.

Section frames.
Variable ds : list tag_directive.
Hypothesis Hds : forall td, In td (all_tds ds) -> valid_handle (td_handle td).
Variable e : event.
Variable an : analysis.
Hypothesis Han : an_ok (all_tds ds) (e_data e) an.
Hypothesis Hfine : fine (all_tds ds) (e_data e).
Definition good (c : est) : Prop := em_canonical c = true /\ (2 <= em_best_indent c)%Z /\ break_chars (em_line_break c) = lf.
Definition upto (fs : list frame) (first : bool) (c : est) (Q : list token_data -> est -> lstate -> Prop) : Prop :=
  forall tk c' ls' fs' first', cstep (CS (GDoc ds fs) first false) (e_data e) tk (CS (GDoc ds fs') first' false) ->
    stay c c' -> D fs' first' c' ls' -> Q tk c' ls'.
(** A node, after what stands before it. *)
Lemma W_child fs f' r' first pre c0 b1 b2 b3 x y w i c ls (Q : list token_data -> est -> lstate -> Prop) :
  after fs = Some (f' :: r') -> f' <> FRoot -> pre = lead fs first -> is_node (e_data e) = true -> good c -> stay c0 c -> em_states c = map (fun f => st_of f false) r' ->
  ind_ok (colls (f' :: r')) (em_indent c) (em_indents c) -> lv ls = N.of_nat (colls (f' :: r')) -> rdy w ls -> upto fs first c0 Q ->
  W (push_estate (st_of f' false) ;; emit_node e b1 b2 b3 false an) (mv x y w i c) ls (fun t c' ls' => Q (pre ++ t) c' ls').
Proof.
  intros Ha Hf -> Hn (G1 & G2 & G3) S Hs Hi Hv Hr Hq. apply W_seq, W_push. cbv beta. cbn [app].
  eapply (W_node e b1 b2 b3 an (all_tds ds)); [exact Hfine|exact Hn|exact Han|exact Hds|exact G1|exact G2|exact G3|reflexivity|exact Hr|].
  intros tk c' ls' Htk K Hl Ho. eapply Hq.
  - apply C_node; [exact Ha|exact Htk].
  - eapply stay_trans; [exact S|]. apply keep_stay in K. destruct K; constructor; assumption.
  - eapply (node_D (e_data e) _ _ _ c' ls' f' r' Ho); [exact K|reflexivity|exact Hs|exact Hf|exact Hi|congruence].
Qed.
Lemma colls_S f r : coll f = 1%nat -> colls (f :: r) = S (colls r). Proof. intros H. unfold colls. cbn [map list_sum fold_right]. rewrite H. reflexivity. Qed.
Lemma W_open (mp first : bool) n x y w i c ls (Q : list token_data -> est -> lstate -> Prop) : good c -> (if first then ind_ok n (em_indent c) (em_indents c) /\ lv ls = N.of_nat n /\ rdy w ls
     else ind_ok (S n) (em_indent c) (em_indents c) /\ lv ls = N.of_nat (S n) /\ i = false /\ ln ls <> Blank) -> N.of_nat n < 2147483647 ->
  (forall x' w' c' ls', good c' -> stay c c' -> em_states c' = em_states c -> ind_ok (S n) (em_indent c') (em_indents c') -> lv ls' = N.of_nat (S n) ->
     (if first then ln ls' = Free else ln ls' <> Blank) -> Q (if first then [if mp then TFlowMappingStart else TFlowSequenceStart] else []) (mv x' y w' false c') ls') ->
  W (when first (write_indicator [if mp then cLBRC else cLBRK] true true false ;; increase_indent true false ;; add_flow_level 1)) (mv x y w i c) ls Q.
Proof.
  intros G Hf Hb Hq. destruct first; cbn [when].
  - destruct Hf as (Hi & Hv & Hr). apply W_seq. eapply (W_indicator lf (IOpen mp)); [destruct mp; reflexivity|exact I|cbn [lstep andb]; rewrite (rdy_free _ _ Hr), rdy_lv, Hv|].
    { cbn [tok_free andb]. replace (N.of_nat n <? 2147483647) with true by lia. reflexivity. }
    intros x'. rewrite andb_false_r. apply W_seq, W_increase; [apply G|]. intros j Hj. apply W_flow. cbn [app].
    apply Hq; [exact G|constructor; reflexivity|reflexivity|constructor; assumption|cbn [lv]; lia|reflexivity].
  - destruct Hf as (Hi & Hv & -> & Hl). apply W_ret, Hq; [exact G|constructor; reflexivity|reflexivity|exact Hi|exact Hv|exact Hl].
Qed.
(** A comma or nothing, then a new line. *)
Lemma W_comma (first : bool) x y w c ls (Q : list token_data -> est -> lstate -> Prop) : good c -> 0 < lv ls -> (if first then ln ls = Free else ln ls <> Blank) ->
  (forall x' y' b, Q (if first then [] else [TFlowEntry]) (mv x' y' true true c) (LS (lv ls) b true Free)) ->
  W (when (negb first) (write_indicator [cCOMMA] false false false) ;; wrap_line) (mv x y w false c) ls Q.
Proof.
  intros (G1 & G2 & G3) Hv Hl Hq.
  assert (E : forall x w ls (Q : list token_data -> est -> lstate -> Prop), (forall x' y' b, Q [] (mv x' y' true true c) (LS (lv ls) b true Free)) -> W wrap_line (mv x y w false c) ls Q).
  { clear - G1 G3. intros x w ls Q Hq. unfold wrap_line. apply W_get; [reflexivity|]. change (em_canonical (mv x y w false c)) with (em_canonical c). rewrite G1. cbn [orb when].
    apply W_indent; [exact G3|]. intros y'. apply Hq. }
  apply W_seq. destruct first; cbn [negb when].
  - apply W_ret, E. intros x' y' b. apply Hq.
  - eapply (W_indicator lf IComma); [reflexivity|exact I| |].
    + cbn [lstep andb spaced]. replace (0 <? lv ls) with true by lia. destruct (ln ls); [reflexivity|reflexivity|congruence].
    + intros x'. apply E. intros x2 y2 b. apply Hq.
Qed.
Lemma W_close (mp first : bool) r x y w c ls (Q : list token_data -> est -> lstate -> Prop) : good c -> stack_ok r -> r <> [FRoot] -> em_states c = map (fun f => st_of f false) r ->
  ind_ok (S (colls r)) (em_indent c) (em_indents c) -> lv ls = N.of_nat (S (colls r)) -> (if first then ln ls = Free else ln ls <> Blank) ->
  (forall c' ls', stay c c' -> D r false c' ls' -> Q ((if first then [] else [TFlowEntry]) ++ [if mp then TFlowMappingEnd else TFlowSequenceEnd]) c' ls') ->
  W (close_flow first (if mp then cRBRC else cRBRK)) (mv x y w false c) ls Q.
Proof.
  intros (G1 & G2 & G3) Hr1 Hr2 Hs Hi Hv Hl Hq. unfold close_flow. apply W_seq, W_flow. cbv beta. inversion Hi as [|n0 i0 j l Hi0 Hi1 E1 E2 E3]; subst n0 i0. symmetry in E3.
  apply W_seq. eapply W_pop_indent; [exact E3|]. cbv beta. cbn [app]. set (c1 := set_em_indent j _). apply W_get; [reflexivity|].
  change (em_canonical (mv x y w false c1)) with (em_canonical c). rewrite G1. cbn [andb].
  assert (E : forall x y w i ls (Q : list token_data -> est -> lstate -> Prop), lv ls = N.of_nat (S (colls r)) -> ln ls = Free -> (forall c' ls', stay c c' -> D r false c' ls' -> Q [if mp then TFlowMappingEnd else TFlowSequenceEnd] c' ls') ->
    W (write_indicator [if mp then cRBRC else cRBRK] false false false ;; pop_estate) (mv x y w i c1) ls Q).
  { clear x y w ls Hv Hl Q Hq. intros x y w i ls Q Hv Hl Hq. apply W_seq. eapply (W_indicator lf (IClose mp)); [destruct mp; reflexivity|exact I|cbn [lstep andb spaced]; rewrite Hl, Hv|].
    { cbn [tok_free andb]. replace (0 <? N.of_nat (S (colls r))) with true by lia. reflexivity. }
    intros x'. destruct r as [|f r]; [contradiction Hr1|]. eapply W_pop; [exact Hs|]. cbn [app itok]. apply Hq; [constructor; reflexivity|].
    split; [reflexivity|]. split; [reflexivity|]. split; [exact Hi1|]. split; [cbn [lv nn]; lia|].
    assert (Hf : f <> FRoot) by (intros ->; destruct r; [congruence|exact Hr1]). destruct f; [congruence| | | |]; (split; [apply andb_false_r|discriminate]). }
  apply W_seq. destruct first; cbn [negb when].
  - apply W_ret. apply E; [exact Hv|exact Hl|]. exact Hq.
  - apply W_seq. eapply (W_indicator lf IComma); [reflexivity|exact I| |].
    + cbn [lstep andb spaced]. replace (0 <? lv ls) with true by lia. destruct (ln ls); [reflexivity|reflexivity|congruence].
    + intros x'. cbn [andb]. apply W_indent; [exact G3|]. intros y'. cbn [app itok]. apply E; [exact Hv|reflexivity|]. exact Hq.
Qed.
Lemma W_assoc (m k r : M est unit) c ls Q : W ((m ;; k) ;; r) c ls Q -> W (m ;; (k ;; r)) c ls Q.
Proof.
  intros H Hc. destruct (H Hc) as (its & c' & ls' & R & H'). exists its, c', ls'. split; [|exact H']. eapply runs_ext; [|exact R].
  intros s. unfold bind. destruct (m s) as [[[]|?|?|] ?]; reflexivity.
Qed.
Lemma W_tk m c ls (Q Q' : list token_data -> est -> lstate -> Prop) : W m c ls Q' -> (forall t c' ls', Q' t c' ls' -> Q t c' ls') -> W m c ls Q.
Proof. apply W_conseq. Qed.
Lemma D_in f r (first : bool) x y w i c ls : coll f = 1%nat -> (first = true -> f <> FVal) -> D (f :: r) first (mv x y w i c) ls ->
  if first then ind_ok (colls r) (em_indent c) (em_indents c) /\ lv ls = N.of_nat (colls r) /\ rdy w ls
     else ind_ok (S (colls r)) (em_indent c) (em_indents c) /\ lv ls = N.of_nat (S (colls r)) /\ i = false /\ ln ls <> Blank.
Proof.
  intros Hf Hv (_ & _ & H3 & H4 & H5). pose proof (colls_S f r Hf) as E. destruct first; cbn [nn tl] in H3, H4.
  - split; [exact H3|]. split; [exact H4|]. destruct f; try discriminate Hf; try exact H5.
  - rewrite E in H3, H4. split; [exact H3|]. split; [exact H4|]. destruct f; try discriminate Hf; exact H5.
Qed.
Lemma not_node_end d f r : match f with FSeq => d <> EvSequenceEnd | FKey => d <> EvMappingEnd | _ => True end -> f <> FDone -> gstep (GDoc ds (f :: r)) d <> None -> is_node d = true.
Proof. destruct f, d; intros H Hd G; try reflexivity; try congruence; destruct G; destruct r; reflexivity. Qed.
Lemma W_seq_item (first : bool) r x y w i c ls (Q : list token_data -> est -> lstate -> Prop) :
  good c -> stack_ok (FSeq :: r) -> D (FSeq :: r) first (mv x y w i c) ls -> N.of_nat (colls (FSeq :: r)) <= 2147483647 -> gstep (GDoc ds (FSeq :: r)) (e_data e) <> None ->
  upto (FSeq :: r) first c Q -> W (emit_flow_sequence_item e first an) (mv x y w i c) ls Q.
Proof.
  intros G [Hr1 Hr2] HD Hb Hg Hq. pose proof (colls_S FSeq r eq_refl) as En. rewrite En in Hb. unfold emit_flow_sequence_item.
  apply W_seq. eapply (W_open false first (colls r)); [exact G|apply (D_in FSeq r first x y w i c ls eq_refl ltac:(discriminate) HD)|lia|].
  intros x1 w1 c1 ls1 G1 S1 E1 I1 V1 L1.
  assert (Hs : em_states c1 = map (fun f => st_of f false) r) by (rewrite E1; apply HD).
  assert (N : e_data e <> EvSequenceEnd -> W (when (negb first) (write_indicator [cCOMMA] false false false) ;; wrap_line ;; push_estate EFlowSequenceItem ;; emit_node e false true false false an)
     (mv x1 y w1 false c1) ls1 (fun t' c2 ls2 => Q ((if first then [TFlowSequenceStart] else []) ++ t') c2 ls2)).
  { intros Hne. apply W_assoc, W_seq. eapply (W_comma first); [exact G1|lia|exact L1|]. intros x2 y2 b.
    eapply W_tk; [eapply (W_child (FSeq :: r) FSeq r first [if first then TFlowSequenceStart else TFlowEntry] c false true false);
      [reflexivity|discriminate|reflexivity|eapply (not_node_end _ FSeq r Hne ltac:(discriminate) Hg)|exact G1|exact S1|exact Hs|rewrite En; exact I1|rewrite En; exact V1|intros _; reflexivity|exact Hq]|].
    cbv beta. intros t c' ls' H. destruct first; exact H. }
  destruct (e_data e) eqn:Ed; try (apply N; discriminate). clear N.
  eapply (W_close false first r); [exact G1|exact Hr1|exact Hr2|exact Hs|exact I1|exact V1|exact L1|].
  intros c' ls' S2 D2. rewrite app_assoc. replace ((if first then [TFlowSequenceStart] else []) ++ (if first then [] else [TFlowEntry])) with [if first then TFlowSequenceStart else TFlowEntry] by (destruct first; reflexivity).
  eapply Hq; [rewrite Ed; apply C_seq_end|eapply stay_trans; eassumption|exact D2].
Qed.
Lemma W_map_key (first : bool) r x y w i c ls (Q : list token_data -> est -> lstate -> Prop) :
  good c -> stack_ok (FKey :: r) -> D (FKey :: r) first (mv x y w i c) ls -> N.of_nat (colls (FKey :: r)) <= 2147483647 -> gstep (GDoc ds (FKey :: r)) (e_data e) <> None ->
  upto (FKey :: r) first c Q -> W (emit_flow_mapping_key e first an) (mv x y w i c) ls Q.
Proof.
  intros G [Hr1 Hr2] HD Hb Hg Hq. pose proof (colls_S FKey r eq_refl) as En. pose proof (colls_S FVal r eq_refl) as En'. rewrite En in Hb. unfold emit_flow_mapping_key.
  apply W_seq. eapply (W_open true first (colls r)); [exact G|apply (D_in FKey r first x y w i c ls eq_refl ltac:(discriminate) HD)|lia|].
  intros x1 w1 c1 ls1 G1 S1 E1 I1 V1 L1.
  assert (Hs : em_states c1 = map (fun f => st_of f false) r) by (rewrite E1; apply HD).
  assert (N : e_data e <> EvMappingEnd -> W (when (negb first) (write_indicator [cCOMMA] false false false) ;; wrap_line ;;
      s <- get ;;
      simple <- (if em_canonical s then ret false else check_simple_key e an) ;;
      if simple : bool then
        push_estate EFlowMappingSimpleValue ;;
        emit_node e false false true true an
      else
        write_indicator [cQM] true false false ;;
        push_estate EFlowMappingValue ;;
        emit_node e false false true false an)
     (mv x1 y w1 false c1) ls1 (fun t' c2 ls2 => Q ((if first then [TFlowMappingStart] else []) ++ t') c2 ls2)).
  { intros Hne. apply W_assoc, W_seq. eapply (W_comma first); [exact G1|lia|exact L1|]. intros x2 y2 b.
    apply W_get. { intros s. change (em_canonical (core s)) with (em_canonical s). reflexivity. }
    change (em_canonical (mv x2 y2 true true c1)) with (em_canonical c1). rewrite (proj1 G1). 
    apply (W_val lf _ false); [reflexivity|]. cbv iota. apply W_seq. eapply (W_indicator lf IKey); [reflexivity|exact I|cbn [lstep andb negb spaced tok_free ln lv]; replace (0 <? lv ls1) with true by lia; reflexivity|]. intros x3.
    eapply W_tk; [eapply (W_child (FKey :: r) FVal r first [if first then TFlowMappingStart else TFlowEntry; Base.TKey] c false false true);
      [reflexivity|discriminate|reflexivity|eapply (not_node_end _ FKey r Hne ltac:(discriminate) Hg)|exact G1|exact S1|exact Hs|rewrite En'; exact I1|rewrite En'; exact V1|discriminate|exact Hq]|].
    cbv beta. intros t c' ls' H. destruct first; exact H. }
  destruct (e_data e) eqn:Ed; try (apply N; discriminate). clear N.
  eapply (W_close true first r); [exact G1|exact Hr1|exact Hr2|exact Hs|exact I1|exact V1|exact L1|].
  intros c' ls' S2 D2. rewrite app_assoc. replace ((if first then [TFlowMappingStart] else []) ++ (if first then [] else [TFlowEntry])) with [if first then TFlowMappingStart else TFlowEntry] by (destruct first; reflexivity).
  eapply Hq; [rewrite Ed; apply C_map_end|eapply stay_trans; eassumption|exact D2].
Qed.
Lemma W_map_value r x y w i c ls (Q : list token_data -> est -> lstate -> Prop) :
  good c -> D (FVal :: r) false (mv x y w i c) ls -> gstep (GDoc ds (FVal :: r)) (e_data e) <> None ->
  upto (FVal :: r) false c Q -> W (emit_flow_mapping_value e false an) (mv x y w i c) ls Q.
Proof.
  intros G HD Hg Hq. pose proof (colls_S FVal r eq_refl) as En. pose proof (colls_S FKey r eq_refl) as En'. unfold emit_flow_mapping_value.
  pose proof (D_in FVal r false x y w i c ls eq_refl ltac:(discriminate) HD) as (Hi & Hv & -> & Hl).
  apply W_seq, W_seq. unfold wrap_line. apply W_get; [reflexivity|]. change (em_canonical (mv x y w false c)) with (em_canonical c). rewrite (proj1 G). cbn [orb when].
  apply W_indent; [apply G|]. intros y1. cbv beta. eapply (W_indicator lf IValue); [reflexivity|exact I|cbn [lstep andb negb spaced tok_free ln lv lnl]; replace (0 <? lv ls) with true by lia; reflexivity|].
  intros x2. cbn [app itok]. eapply W_tk; [eapply (W_child (FVal :: r) FKey r false [TValue] c false false true);
      [reflexivity|discriminate|reflexivity|eapply (not_node_end _ FVal r Logic.I ltac:(discriminate) Hg)|exact G|constructor; reflexivity|apply HD|rewrite En'; exact Hi|cbn [lv]; rewrite En'; exact Hv|discriminate|exact Hq]|].
  auto.
Qed.
Lemma W_root x y w i c ls (Q : list token_data -> est -> lstate -> Prop) :
  good c -> D [FRoot] false (mv x y w i c) ls -> gstep (GDoc ds [FRoot]) (e_data e) <> None ->
  upto [FRoot] false c Q -> W (emit_document_content e an) (mv x y w i c) ls Q.
Proof.
  intros G (H1 & H2 & H3 & H4 & H5 & H6 & H7 & H8 & H9) Hg Hq. unfold emit_document_content.
  eapply W_tk; [eapply (W_child [FRoot] FDone [] false [] c true false false);
      [reflexivity|discriminate|reflexivity|eapply (not_node_end _ FRoot [] Logic.I ltac:(discriminate) Hg)|exact G|constructor; reflexivity|exact H2|exact H3|exact H4|intros _; exact H9|exact Hq]|].
  auto.
Qed.
End frames.

(** ** Documents *)
Lemma version_val vd : all valid_version vd -> forall s, match vd with Some v => analyze_version_directive v | None => ret tt end s = (Ok tt, s).
Proof.
  intros H s. destruct vd as [v|]; [|reflexivity]. destruct H as [H1 H2]. unfold analyze_version_directive. rewrite H1.
  destruct H2 as [-> | ->]; reflexivity.
Qed.
Lemma directive_val t : valid_directive t -> analyze_tag_directive t = ret tt.
Proof.
  intros [H1 H2]. apply handle_spec in H1. destruct H1 as (E1 & E2 & E3 & E4). unfold analyze_tag_directive. cbv zeta. rewrite E1, E2, E3, E4. cbn [negb].
  replace (is_empty (td_prefix t)) with false by (destruct (td_prefix t); [congruence|reflexivity]). reflexivity.
Qed.
Lemma W_append t b x y w i c ls (Q : list token_data -> est -> lstate -> Prop) :
  (In (td_handle t) (map td_handle (em_tag_directives c)) -> b = true /\ Q [] (mv x y w i c) ls) ->
  (~ In (td_handle t) (map td_handle (em_tag_directives c)) -> Q [] (mv x y w i (set_em_tag_directives (em_tag_directives c ++ [t]) c)) ls) ->
  W (em_append_tag_directive t b) (mv x y w i c) ls Q.
Proof.
  intros H1 H2. unfold em_append_tag_directive. apply W_get; [reflexivity|]. change (em_tag_directives (mv x y w i c)) with (em_tag_directives c).
  destruct (existsb (fun u => str_eqb (td_handle t) (td_handle u)) (em_tag_directives c)) eqn:E.
  - apply existsb_handle in E. destruct (H1 E) as [-> Hq]. apply W_ret, Hq.
  - apply W_set; [inner|keeps_core|]. apply H2. intros H. apply existsb_handle in H. congruence.
Qed.
Lemma set_tds_id c : set_em_tag_directives (em_tag_directives c) c = c. Proof. destruct c; reflexivity. Qed.
Lemma W_directives tds : forall x y w i c ls (Q : list token_data -> est -> lstate -> Prop), Forall valid_directive tds -> NoDup (map td_handle (em_tag_directives c ++ tds)) ->
  Q [] (mv x y w i (set_em_tag_directives (em_tag_directives c ++ tds) c)) ls ->
  W (iterM (fun t => analyze_tag_directive t ;; em_append_tag_directive t false) tds) (mv x y w i c) ls Q.
Proof.
  induction tds as [|t tds IH]; intros x y w i c ls Q Hv Hn Hq; cbn [iterM].
  - apply W_ret. rewrite app_nil_r, set_tds_id in Hq. exact Hq.
  - inversion Hv as [|? ? Hv1 Hv2]; subst. apply W_seq, W_seq. rewrite (directive_val t Hv1). apply W_ret.
    apply W_append.
    + intros H. exfalso. rewrite map_app in Hn. cbn [map] in Hn. apply NoDup_remove_2 in Hn. apply Hn, in_or_app. left. exact H.
    + intros _. cbn [app]. replace (em_tag_directives c ++ t :: tds) with ((em_tag_directives c ++ [t]) ++ tds) in * by (rewrite <- app_assoc; reflexivity).
      apply IH; [exact Hv2|exact Hn|exact Hq].
Qed.
Lemma W_defaults tds x y w i c ls (Q : list token_data -> est -> lstate -> Prop) : em_tag_directives c = tds ->
  Q [] (mv x y w i (set_em_tag_directives (all_tds tds) c)) ls ->
  W (iterM (fun t => em_append_tag_directive t true) default_tag_directives) (mv x y w i c) ls Q.
Proof.
  intros <- Hq. unfold all_tds in Hq. set (t1 := Mk_td (lit "!") (lit "!")) in *. set (t2 := Mk_td (lit "!!") (lit "tag:yaml.org,2002:")) in *.
  change default_tag_directives with [t1; t2] in *. cbn [iterM filter] in *.
  assert (F : forall (tt : tag_directive) l, ~ In (td_handle tt) (map td_handle l) -> existsb (fun u => str_eqb (td_handle tt) (td_handle u)) l = false).
  { intros t l H. apply not_true_iff_false. intros E. apply existsb_handle in E. contradiction. }
  assert (T : forall (tt : tag_directive) l, In (td_handle tt) (map td_handle l) -> existsb (fun u => str_eqb (td_handle tt) (td_handle u)) l = true) by (intros; apply existsb_handle; assumption).
  apply W_seq, W_append; intros H1; [split; [reflexivity|]|]; (apply W_seq, W_append; intros H2; [split; [reflexivity|]|]); apply W_ret; cbn [app] in *.
  - rewrite (T _ _ H1), (T _ _ H2) in Hq. cbn [negb] in Hq. rewrite app_nil_r, set_tds_id in Hq. exact Hq.
  - rewrite (T _ _ H1), (F _ _ H2) in Hq. exact Hq.
  - change (em_tag_directives (set_em_tag_directives (em_tag_directives c ++ [t1]) c)) with (em_tag_directives c ++ [t1]) in H2. rewrite map_app in H2. apply in_app_or in H2.
    assert (H3 : In (td_handle t2) (map td_handle (em_tag_directives c))) by (destruct H2 as [H2|[H2|[]]]; [exact H2|discriminate H2]).
    rewrite (F _ _ H1), (T _ _ H3) in Hq. exact Hq.
  - change (em_tag_directives (set_em_tag_directives (em_tag_directives c ++ [t1]) c)) with (em_tag_directives c ++ [t1]) in H2.
    assert (H3 : ~ In (td_handle t2) (map td_handle (em_tag_directives c))) by (intros H; apply H2; rewrite map_app; apply in_or_app; left; exact H).
    rewrite (F _ _ H1), (F _ _ H3) in Hq. cbn [negb] in Hq. replace (em_tag_directives c ++ [t1; t2]) with ((em_tag_directives c ++ [t1]) ++ [t2]) in Hq by (rewrite <- app_assoc; reflexivity). exact Hq.
Qed.
Lemma all_handles tds : Forall valid_directive tds -> forall td, In td (all_tds tds) -> valid_handle (td_handle td).
Proof.
  intros Hv td H. unfold all_tds in H. apply in_app_or in H. destruct H as [H|H]; [rewrite Forall_forall in Hv; apply Hv, H|].
  apply filter_In in H. destruct H as [[<-|[<-|[]]] _]; [left; reflexivity|]. right. exists []. split; [reflexivity|constructor].
Qed.
Definition line0 (ls : lstate) : Prop := lv ls = 0 /\ lz ls = true /\ ln ls = Free.
Lemma W_marker it l y c ls (Q : list token_data -> est -> lstate -> Prop) : break_chars (em_line_break c) = lf -> em_indent c = (-1)%Z -> it = IStart \/ it = IEnd -> itext lf it = l -> line0 ls ->
  (forall y' ls', line0 ls' -> Q (itok it) (mv 0 y' true true c) ls') -> W (write_indicator l true false false ;; write_indent) (mv 0 y true true c) ls Q.
Proof.
  intros Hl Hi Hit Hx (H1 & H2 & H3) Hq. apply W_seq. eapply (W_indicator lf it); [exact Hx|destruct Hit as [-> | ->]; exact I| |].
  - cbn [negb andb spaced]. destruct Hit as [-> | ->]; cbn [lstep]; rewrite H1, H2, H3; reflexivity.
  - intros x'. cbn [andb]. apply W_indent; [exact Hl|]. intros y'. rewrite Hi, app_nil_r. apply (Hq y'). repeat split.
Qed.
Lemma W_version v y c ls (Q : list token_data -> est -> lstate -> Prop) : break_chars (em_line_break c) = lf -> em_indent c = (-1)%Z -> valid_version v -> line0 ls ->
  (forall y' ls', line0 ls' -> Q [TVersionDirective (vd_major v) (vd_minor v)] (mv 0 y' true true c) ls') ->
  W (write_indicator (lit "%YAML") true false false ;; write_indicator (if (vd_minor v =? 1)%Z then lit "1.1" else lit "1.2") true false false ;; write_indent) (mv 0 y true true c) ls Q.
Proof.
  intros Hl Hi [Hv1 Hv2] (H1 & H2 & H3) Hq. set (d := if (vd_minor v =? 1)%Z then 1 else 2).
  assert (Ed : Z.of_N d = vd_minor v) by (unfold d; destruct Hv2 as [-> | ->]; reflexivity).
  eapply (W_runs lf _ _ _ [IVersion d] (mv 0 (y + 1) true true c) (LS 0 true false Free)).
  - cbn [texts flat_map itext]. rewrite app_nil_r. rewrite <- Hl.
    assert (Et : lit "%YAML 1." ++ [48 + d] ++ break_chars (em_line_break c) = lit "%YAML" ++ ([32] ++ (if (vd_minor v =? 1)%Z then lit "1.1" else lit "1.2")) ++ break_chars (em_line_break c))
      by (unfold d; destruct (vd_minor v =? 1)%Z; reflexivity).
    rewrite Et. refine (runs_seq _ _ _ _ _ _ _ _ (r_write_indicator c (lit "%YAML") true false false 0 y true true) _).
    refine (runs_seq _ _ _ _ _ _ _ _ (r_write_indicator c (if (vd_minor v =? 1)%Z then lit "1.1" else lit "1.2") true false false _ _ _ _) _).
    refine (runs_conseq _ _ _ _ _ _ _ _ (r_indent_break c _ _ _) _ eq_refl _); rewrite Hi; [apply app_nil_r|reflexivity].
  - apply mv_core.
  - constructor; [|constructor]. cbn [item_ok]. unfold d. destruct (vd_minor v =? 1)%Z; lia.
  - cbn [lrun lstep]. rewrite H1, H2, H3. reflexivity.
  - cbn [toks flat_map itok app]. rewrite Ed, <- Hv1. apply Hq. repeat split.
Qed.
Lemma W_tag_directive t y c ls (Q : list token_data -> est -> lstate -> Prop) : break_chars (em_line_break c) = lf -> em_indent c = (-1)%Z -> valid_directive t -> ascii (td_prefix t) -> line0 ls ->
  (forall y' ls', line0 ls' -> Q [TTagDirective (td_handle t) (td_prefix t)] (mv 0 y' true true c) ls') ->
  W (write_indicator (lit "%TAG") true false false ;; write_tag_handle (td_handle t) ;; write_tag_content (td_prefix t) true ;; write_indent) (mv 0 y true true c) ls Q.
Proof.
  intros Hl Hi [Hv1 Hv2] Ha (H1 & H2 & H3) Hq.
  destruct (r_tag_content (td_prefix t) true (0 + 0 + 4 + 1 + Z.of_nat (length (td_handle t)))%Z y false false c Ha) as (x' & R).
  eapply (W_runs lf _ _ _ [ITagDir (td_handle t) (td_prefix t)] (mv 0 (y + 1) true true c) (LS 0 true false Free)).
  - cbn [texts flat_map itext]. rewrite app_nil_r, <- Hl.
    assert (Et : lit "%TAG " ++ td_handle t ++ [32] ++ uri (td_prefix t) ++ break_chars (em_line_break c) = lit "%TAG" ++ ([32] ++ td_handle t) ++ ([32] ++ uri (td_prefix t)) ++ break_chars (em_line_break c)).
    { change (lit "%TAG ") with (lit "%TAG" ++ [32]). rewrite <- !app_assoc. reflexivity. }
    rewrite Et. refine (runs_seq _ _ _ _ _ _ _ _ (r_write_indicator c (lit "%TAG") true false false 0 y true true) _).
    refine (runs_seq _ _ _ _ _ _ _ _ (r_tag_handle (td_handle t) _ _ _ _ _) _). refine (runs_seq _ _ _ _ _ _ _ _ R _).
    refine (runs_conseq _ _ _ _ _ _ _ _ (r_indent_break c _ _ _) _ eq_refl _); rewrite Hi; [apply app_nil_r|reflexivity].
  - apply mv_core.
  - constructor; [|constructor]. split; [exact Hv1|]. split; assumption.
  - cbn [lrun lstep]. rewrite H1, H2, H3. reflexivity.
  - apply Hq. repeat split.
Qed.
Lemma W_tag_directives tds : forall y c ls (Q : list token_data -> est -> lstate -> Prop), break_chars (em_line_break c) = lf -> em_indent c = (-1)%Z -> Forall valid_directive tds -> Forall (fun t => ascii (td_prefix t)) tds -> line0 ls ->
  (forall y' ls', line0 ls' -> Q (map (fun t => TTagDirective (td_handle t) (td_prefix t)) tds) (mv 0 y' true true c) ls') ->
  W (iterM (fun t => write_indicator (lit "%TAG") true false false ;; write_tag_handle (td_handle t) ;; write_tag_content (td_prefix t) true ;; write_indent) tds) (mv 0 y true true c) ls Q.
Proof.
  induction tds as [|t tds IH]; intros y c ls Q Hl Hi Hv Ha H0 Hq; cbn [iterM map]; [apply W_ret, Hq, H0|].
  apply W_seq. apply W_tag_directive; [exact Hl|exact Hi|exact (Forall_inv Hv)|exact (Forall_inv Ha)|exact H0|]. intros y1 ls1 H1.
  apply IH; [exact Hl|exact Hi|exact (Forall_inv_tail Hv)|exact (Forall_inv_tail Ha)|exact H1|]. intros y2 ls2 H2. apply Hq, H2.
Qed.
Lemma W_doc_start vd tds imp e first y c ls oe (Q : list token_data -> est -> lstate -> Prop) : e_data e = EvDocumentStart vd tds imp -> valid_directives (e_data e) -> Forall (fun t => ascii (td_prefix t)) tds ->
  good c -> em_tag_directives c = [] -> em_states c = [] -> em_indents c = [] -> em_indent c = (-1)%Z -> line0 ls -> em_open_ended c = (if oe : bool then 1 else 0)%Z ->
  (forall y' c' ls' f, good c' -> em_events c' = em_events c -> em_tag_directives c' = all_tds tds -> em_open_ended c' = 0%Z -> D [FRoot] false (mv 0 y' true true c') ls' ->
     forall tk, cstep (CS GDocs f oe) (e_data e) tk (CS (GDoc tds [FRoot]) false false) -> Q tk (mv 0 y' true true c') ls') ->
  W (emit_document_start e first) (mv 0 y true true c) ls Q.
Proof.
  intros Ee Hv Ha (G1 & G2 & G3) Ht Hst Hin Hi H0 Ho Hq. unfold emit_document_start. rewrite Ee in *. destruct Hv as (Hv1 & Hv2 & Hv3).
  apply (W_val lf _ tt); [intros s _; apply version_val, Hv1|].
  apply W_seq, W_directives; [exact Hv2|rewrite Ht; exact Hv3|]. rewrite Ht. cbn [app].
  set (c1 := set_em_tag_directives tds c). apply W_seq, (W_defaults tds); [reflexivity|]. cbn [app]. set (c2 := set_em_tag_directives (all_tds tds) c1).
  apply W_get; [reflexivity|]. change (em_canonical (mv 0 y true true c2)) with (em_canonical c). change (em_open_ended (mv 0 y true true c2)) with (em_open_ended c). rewrite G1. cbn [negb].
  rewrite andb_false_r. cbn [andb negb]. cbv zeta.
  assert (L2 : break_chars (em_line_break c2) = lf) by exact G3. assert (I2 : em_indent c2 = (-1)%Z) by exact Hi.
  apply W_seq.
  assert (M : forall Q' : list token_data -> est -> lstate -> Prop, (forall y' ls', line0 ls' -> Q' (if oe && has_directives vd tds then [TDocumentEnd] else []) (mv 0 y' true true c2) ls') ->
    W (when ((match vd with Some _ => true | None => false end || negb (is_empty tds)) && negb (em_open_ended c =? 0)%Z) (write_indicator (lit "...") true false false ;; write_indent)) (mv 0 y true true c2) ls Q').
  { intros Q' H'. replace (match vd with Some _ => true | None => false end || negb (is_empty tds)) with (has_directives vd tds) by (destruct vd; reflexivity).
    rewrite Ho. replace (negb ((if oe then 1 else 0) =? 0)%Z) with oe by (destruct oe; reflexivity). rewrite (andb_comm (has_directives vd tds)).
    destruct (oe && has_directives vd tds); cbn [when]; [|apply W_ret, H', H0].
    eapply (W_marker IEnd); [exact L2|exact I2|right; reflexivity|reflexivity|exact H0|]. intros y' ls' Hl'. apply H', Hl'. }
  apply M. clear M. intros y1 ls1 H1. cbv beta. apply W_seq, W_set; [inner|keeps_core|]. change (set_em_open_ended 0 (mv 0 y1 true true c2)) with (mv 0 y1 true true (set_em_open_ended 0 c2)).
  set (c3 := set_em_open_ended 0 c2). assert (L3 : break_chars (em_line_break c3) = lf) by exact G3. assert (I3 : em_indent c3 = (-1)%Z) by exact Hi.
  apply W_seq.
  assert (M : forall Q' : list token_data -> est -> lstate -> Prop, (forall y' ls', line0 ls' -> Q' (match vd with Some v => [TVersionDirective (vd_major v) (vd_minor v)] | None => [] end) (mv 0 y' true true c3) ls') ->
    W (match vd with Some v => write_indicator (lit "%YAML") true false false ;; write_indicator (if (vd_minor v =? 1)%Z then lit "1.1" else lit "1.2") true false false ;; write_indent | None => ret tt end) (mv 0 y1 true true c3) ls1 Q').
  { intros Q' H'. destruct vd as [v|]; [|apply W_ret, H', H1]. apply W_version; [exact L3|exact I3|exact Hv1|exact H1|]. exact H'. }
  apply M. clear M. intros y2 ls2 H2. cbv beta. apply W_seq. apply W_tag_directives; [exact L3|exact I3|exact Hv2|exact Ha|exact H2|]. intros y3 ls3 H3. cbv beta.
  apply W_seq. cbn [when]. apply W_seq, W_indent_none; [rewrite I3; lia|]. cbv beta. cbn [app].
  eapply (W_marker IStart (lit "---")); [exact L3|exact I3|left; reflexivity|reflexivity|exact H3|]. intros y4 ls4 H4. cbn [itok app].
  apply W_seq, W_goto. cbv beta. set (c4 := set_em_state EDocumentContent c3). apply W_set; [inner|keeps_core|]. change (set_em_open_ended 0 (mv 0 y4 true true c4)) with (mv 0 y4 true true (set_em_open_ended 0 c4)).
  rewrite !app_nil_r. cbn [app]. rewrite (app_assoc (match vd with Some _ => _ | None => [] end)).
  apply (Hq y4 (set_em_open_ended 0 c4) ls4 false); [repeat split; assumption|reflexivity|reflexivity|reflexivity| |].
  - split; [reflexivity|]. split; [exact Hst|]. split; [cbn [nn]; change (em_indent (mv 0 y4 true true (set_em_open_ended 0 c4))) with (em_indent c); change (em_indents (mv 0 y4 true true (set_em_open_ended 0 c4))) with (em_indents c); rewrite Hi, Hin; constructor|].
    destruct H4 as (H4 & H5 & H6). split; [exact H4|]. repeat split; assumption.
  - exact (C_doc false oe vd tds imp).
Qed.
Lemma W_doc_end imp e ds x y w i c ls (Q : list token_data -> est -> lstate -> Prop) : e_data e = EvDocumentEnd imp -> good c -> D [FDone] false (mv x y w i c) ls -> em_open_ended c = 0%Z ->
  (forall y' c' ls', good c' -> em_events c' = em_events c -> em_state c' = EDocumentStart -> em_states c' = [] -> em_indents c' = [] -> em_indent c' = (-1)%Z -> line0 ls' ->
     em_open_ended c' = (if imp then 1 else 0)%Z -> forall tk, cstep (CS (GDoc ds [FDone]) false false) (e_data e) tk (CS GDocs false imp) -> Q tk (mv 0 y' true true c') ls') ->
  W (emit_document_end e) (mv x y w i c) ls Q.
Proof.
  intros Ee (G1 & G2 & G3) (H1 & H2 & H3 & H4 & H5 & H6) Ho Hq. change (i = false) in H5. subst i. unfold emit_document_end. rewrite Ee in *.
  assert (Hi : em_indent c = (-1)%Z /\ em_indents c = []).
  { change (ind_ok 0 (em_indent c) (em_indents c)) in H3. inversion H3. auto. }
  destruct Hi as [Hi Hin]. apply W_seq, W_indent; [exact G3|]. intros y1. rewrite Hi. cbv beta. change (Z.max (-1) 0) with 0%Z. change (-1 <=? 0)%Z with true.
  change (lv ls = 0) in H4. rewrite H4. apply W_get; [reflexivity|]. change (em_open_ended (mv 0 y1 true true c)) with (em_open_ended c). rewrite Ho. cbn [Z.eqb when app].
  apply W_seq.
  assert (M : forall Q' : list token_data -> est -> lstate -> Prop, (forall y' ls', line0 ls' -> Q' (if imp then [] else [TDocumentEnd]) (mv 0 y' true true (set_em_open_ended (if imp then 1 else 0)%Z c)) ls') ->
    W (if negb imp then write_indicator (lit "...") true false false ;; modify (set_em_open_ended 0%Z) ;; write_indent else modify (set_em_open_ended 1%Z)) (mv 0 y1 true true c) (LS 0 true true Free) Q').
  { intros Q' H'. destruct imp; cbn [negb].
    - apply W_set; [inner|keeps_core|]. apply (H' y1). repeat split.
    - apply W_seq. eapply (W_indicator lf IEnd); [reflexivity|exact I|reflexivity|]. intros x2. cbn [andb]. apply W_seq, W_set; [inner|keeps_core|].
      change (set_em_open_ended 0 (mv x2 y1 false false c)) with (mv x2 y1 false false (set_em_open_ended 0 c)). cbn [app itok].
      apply W_indent; [exact G3|]. intros y2. change (em_indent (set_em_open_ended 0 c)) with (em_indent c). rewrite Hi. apply (H' y2). repeat split. }
  apply M. clear M. intros y2 ls2 L2. cbv beta. set (c2 := set_em_open_ended _ c).
  apply W_seq. apply (W_runs lf _ _ _ [] (mv 0 y2 true true c2) ls2); [apply runs_flush|auto|constructor|reflexivity|]. cbn [toks flat_map app].
  apply W_seq, W_goto. cbv beta. cbn [app]. apply W_set; [inner|keeps_core|]. rewrite app_nil_r.
  change (set_em_tag_directives [] (mv 0 y2 true true (set_em_state EDocumentStart c2))) with (mv 0 y2 true true (set_em_tag_directives [] (set_em_state EDocumentStart c2))).
  eapply Hq; [repeat split; assumption|reflexivity|reflexivity|exact H2|exact Hin|exact Hi|exact L2|reflexivity|]. apply C_end.
Qed.
End canon.
