(** EmitIo.v -- failures of the output handler are reported exactly once, by the call that meets
    them.  Uses the judgement of IoFacts.v. *)
From Verif Require Import Base Utf Chars EState Emitter Document Api IoFacts.

(** The failures the output handler is still going to return, in order. *)
Definition write_failures (s : est) : list N :=
  match em_writer s with
  | Some w => flat_map (fun e => match e with WFail _ x => [x] | WOk => [] end) (w_plan w)
  | None => []
  end.
Definition no_enc {S} (_ : S) : encoding := Utf8.
Notation WS := (Fp write_failures no_enc).

Lemma W_raw {A} (m : M est A) :
  (forall s, (match fst (m s) with Err (EIo _) => False | _ => True end) /\ write_failures (snd (m s)) = write_failures s) -> WS m.
Proof. intros H. apply Fp_raw. intros s. destruct (H s). auto. Qed.
Lemma W_write_all l : WS (write_all_m l).
Proof.
  intros s. unfold Fps, write_all_m, write_failures. destruct (em_writer s) as [w|] eqn:E.
  - unfold write_all. destruct (w_plan w) as [|[|k x] p] eqn:Ep; cbn; rewrite ?E, ?Ep; (split; [reflexivity|]; split; [discriminate|auto]).
  - cbn. rewrite E. split; [reflexivity|]. split; [discriminate|auto].
Qed.
Lemma W_modify f : (forall s, em_writer (f s) = em_writer s) -> WS (modify f).
Proof. intros H. apply Fp_modify. intros s. unfold write_failures. rewrite H. auto. Qed.
Create HintDb ww.
Global Hint Resolve W_write_all : ww.
Ltac w1 :=
  lazymatch goal with
  | |- Fp _ _ (ret _) => apply Fp_ret
  | |- Fp _ _ (fail _) => apply Fp_fail; exact I
  | |- Fp _ _ (emitter_error _) => apply Fp_fail; exact I
  | |- Fp _ _ (panics _) => apply Fp_panics
  | |- Fp _ _ (modify _) => apply W_modify; intros; reflexivity
  | |- Fp _ _ get => apply Fp_get
  | |- Fp _ _ (bind _ _) => apply Fp_bind; [|intros]
  | |- Fp _ _ (when _ _) => unfold when
  | |- Fp _ _ (let '(_, _) := ?x in _) => destruct x
  | |- Fp _ _ (match e_data ?t with _ => _ end) => let x := fresh "x" in generalize (e_data t); intros x; destruct x
  | |- Fp _ _ (match ?x with _ => _ end) => destruct x
  end.
Ltac ws := repeat first [ solve [auto with ww nocore] | w1 ].
Ltac wu f := unfold f; cbv zeta; ws.
Lemma W_iterM {A} (f : A -> M est unit) l : (forall x, WS (f x)) -> WS (iterM f l).
Proof. intros H. induction l as [|x l IH]; cbn [iterM]; ws. Qed.
Lemma W_iterD {S A} (pd : S -> list N) (f : A -> M S unit) l : (forall x, Fp pd no_enc (f x)) -> Fp pd no_enc (iterD f l).
Proof. intros H. induction l as [|x l IH]; cbn [iterD]; ws. Qed.
Global Hint Extern 2 (Fp _ _ (iterM _ _)) => apply W_iterM; intros; ws : ww.

Lemma W_flush : WS flush. Proof. wu flush. Qed.
Lemma W_out l : WS (out l). Proof. wu out. Qed.
Lemma W_add n : WS (add_column n). Proof. wu add_column. Qed.
Lemma W_nl : WS new_line. Proof. wu new_line. Qed.
Global Hint Resolve W_flush W_out W_add W_nl : ww.
Lemma W_fin : WS flush_if_needed. Proof. wu flush_if_needed. Qed.
Global Hint Resolve W_fin : ww.
Lemma W_put x : WS (put x). Proof. wu put. Qed.
Lemma W_put_break : WS put_break. Proof. wu put_break. Qed.
Lemma W_write_str x : WS (write_str x). Proof. wu write_str. Qed.
Lemma W_write_char x : WS (write_char x). Proof. wu write_char. Qed.
Global Hint Resolve W_put W_put_break W_write_str W_write_char : ww.
Lemma W_write_break x : WS (write_break x). Proof. wu write_break. Qed.
Lemma W_put_spaces n : WS (put_spaces n). Proof. induction n; cbn [put_spaces]; ws. Qed.
Lemma W_set_ws a b : WS (set_ws a b). Proof. wu set_ws. Qed.
Lemma W_set_indention a : WS (set_indention a). Proof. wu set_indention. Qed.
Global Hint Resolve W_write_break W_put_spaces W_set_ws W_set_indention : ww.
Lemma W_write_indent : WS write_indent. Proof. wu write_indent. Qed.
Lemma W_write_indicator a b c d : WS (write_indicator a b c d). Proof. wu write_indicator. Qed.
Lemma W_write_anchor v : WS (write_anchor v). Proof. wu write_anchor. Qed.
Lemma W_write_tag_handle v : WS (write_tag_handle v). Proof. wu write_tag_handle. Qed.
Lemma W_write_tag_content v b : WS (write_tag_content v b). Proof. wu write_tag_content. Qed.
Lemma W_write_bom : WS write_bom. Proof. wu write_bom. Qed.
Global Hint Resolve W_write_indent W_write_indicator W_write_anchor W_write_tag_handle W_write_tag_content W_write_bom : ww.
Lemma W_plain_loop a l : forall b c, WS (plain_loop a b c l).
Proof. induction l as [|x l IH]; intros b c; cbn [plain_loop]; ws. Qed.
Lemma W_single_loop a l : forall b c d, WS (single_loop a b c d l).
Proof. induction l as [|x l IH]; intros b c d; cbn [single_loop]; ws. Qed.
Lemma W_double_loop a l : forall b c, WS (double_loop a b c l).
Proof. induction l as [|x l IH]; intros b c; cbn [double_loop]; ws. Qed.
Lemma W_literal_loop l : forall b, WS (literal_loop b l).
Proof. induction l as [|x l IH]; intros b; cbn [literal_loop]; ws. Qed.
Lemma W_folded_loop l : forall b c, WS (folded_loop b c l).
Proof. induction l as [|x l IH]; intros b c; cbn [folded_loop]; cbv zeta; ws. Qed.
Global Hint Resolve W_plain_loop W_single_loop W_double_loop W_literal_loop W_folded_loop : ww.
Lemma W_write_plain_scalar v b : WS (write_plain_scalar v b). Proof. wu write_plain_scalar. Qed.
Lemma W_write_single_quoted_scalar v b : WS (write_single_quoted_scalar v b). Proof. wu write_single_quoted_scalar. Qed.
Lemma W_write_double_quoted_scalar v b : WS (write_double_quoted_scalar v b). Proof. wu write_double_quoted_scalar. Qed.
Lemma W_write_block_scalar_hints v : WS (write_block_scalar_hints v). Proof. wu write_block_scalar_hints. Qed.
Global Hint Resolve W_write_plain_scalar W_write_single_quoted_scalar W_write_double_quoted_scalar W_write_block_scalar_hints : ww.
Lemma W_write_literal_scalar v : WS (write_literal_scalar v). Proof. wu write_literal_scalar. Qed.
Lemma W_write_folded_scalar v : WS (write_folded_scalar v). Proof. wu write_folded_scalar. Qed.
Global Hint Resolve W_write_literal_scalar W_write_folded_scalar : ww.
Lemma W_increase_indent a b : WS (increase_indent a b).
Proof.
  unfold increase_indent. apply W_modify. intros s. cbv zeta. destruct (_ <? 0)%Z; [reflexivity|]. destruct (negb b); reflexivity.
Qed.
Lemma W_pop_indent : WS pop_indent.
Proof. apply W_raw. intros s. unfold pop_indent. destruct (em_indents s); cbn; auto. Qed.
Lemma W_pop_estate : WS pop_estate.
Proof. apply W_raw. intros s. unfold pop_estate. destruct (em_states s); cbn; auto. Qed.
Lemma W_goto x : WS (goto_estate x). Proof. wu goto_estate. Qed.
Lemma W_push x : WS (push_estate x). Proof. wu push_estate. Qed.
Global Hint Resolve W_increase_indent W_pop_indent W_pop_estate W_goto W_push : ww.
Lemma W_append v b : WS (em_append_tag_directive v b). Proof. wu em_append_tag_directive. Qed.
Lemma W_check_simple_key e an : WS (check_simple_key e an). Proof. wu check_simple_key. Qed.
Lemma W_select a b c d e : WS (select_scalar_style a b c d e). Proof. wu select_scalar_style. Qed.
Lemma W_process_anchor a : WS (process_anchor a). Proof. wu process_anchor. Qed.
Lemma W_process_tag a : WS (process_tag a). Proof. wu process_tag. Qed.
Lemma W_process_scalar a b : WS (process_scalar a b). Proof. wu process_scalar. Qed.
Global Hint Resolve W_append W_check_simple_key W_select W_process_anchor W_process_tag W_process_scalar : ww.
Lemma W_emit_alias a : WS (emit_alias a). Proof. wu emit_alias. Qed.
Lemma W_emit_scalar a b c d : WS (emit_scalar a b c d). Proof. wu emit_scalar. Qed.
Lemma W_emit_sequence_start a b c : WS (emit_sequence_start a b c). Proof. wu emit_sequence_start. Qed.
Lemma W_emit_mapping_start a b c : WS (emit_mapping_start a b c). Proof. wu emit_mapping_start. Qed.
Global Hint Resolve W_emit_alias W_emit_scalar W_emit_sequence_start W_emit_mapping_start : ww.
Lemma W_emit_node e a b c d an : WS (emit_node e a b c d an). Proof. wu emit_node. Qed.
Global Hint Resolve W_emit_node : ww.
Lemma W_analyze_vd v : WS (analyze_version_directive v). Proof. wu analyze_version_directive. Qed.
Lemma W_analyze_td v : WS (analyze_tag_directive v). Proof. wu analyze_tag_directive. Qed.
Global Hint Resolve W_analyze_vd W_analyze_td : ww.
Lemma normalise_writer e s : em_writer (normalise_settings e s) = em_writer s.
Proof.
  unfold normalise_settings. cbn [em_writer set_em_indention set_em_whitespace set_em_column set_em_line set_em_indent].
  repeat match goal with |- context [if ?b then _ else _] => destruct b | |- context [match ?b with _ => _ end] => destruct b end; reflexivity.
Qed.
Lemma W_emit_stream_start e : WS (emit_stream_start e).
Proof. unfold emit_stream_start. ws. apply W_modify. apply normalise_writer. Qed.
Lemma W_emit_document_start e b : WS (emit_document_start e b). Proof. wu emit_document_start. Qed.
Lemma W_emit_document_content e b : WS (emit_document_content e b). Proof. wu emit_document_content. Qed.
Lemma W_emit_document_end e : WS (emit_document_end e). Proof. wu emit_document_end. Qed.
Lemma W_add_flow_level n : WS (add_flow_level n). Proof. wu add_flow_level. Qed.
Lemma W_wrap_line : WS wrap_line. Proof. wu wrap_line. Qed.
Global Hint Resolve W_emit_stream_start W_emit_document_start W_emit_document_content W_emit_document_end W_add_flow_level W_wrap_line : ww.
Lemma W_close_flow a b : WS (close_flow a b). Proof. wu close_flow. Qed.
Global Hint Resolve W_close_flow : ww.
Lemma W_fsi e b an : WS (emit_flow_sequence_item e b an). Proof. wu emit_flow_sequence_item. Qed.
Lemma W_fmk e b an : WS (emit_flow_mapping_key e b an). Proof. wu emit_flow_mapping_key. Qed.
Lemma W_fmv e b an : WS (emit_flow_mapping_value e b an). Proof. wu emit_flow_mapping_value. Qed.
Lemma W_bsi e b an : WS (emit_block_sequence_item e b an). Proof. wu emit_block_sequence_item. Qed.
Lemma W_bmk e b an : WS (emit_block_mapping_key e b an). Proof. wu emit_block_mapping_key. Qed.
Lemma W_bmv e b an : WS (emit_block_mapping_value e b an). Proof. wu emit_block_mapping_value. Qed.
Global Hint Resolve W_fsi W_fmk W_fmv W_bsi W_bmk W_bmv : ww.
Lemma W_em_state_machine e an : WS (em_state_machine e an). Proof. wu em_state_machine. Qed.
Lemma W_analyze_anchor a b : WS (analyze_anchor a b). Proof. wu analyze_anchor. Qed.
Lemma W_analyze_tag_loop t l : WS (analyze_tag_loop t l).
Proof. induction l as [|x l IH]; cbn [analyze_tag_loop]; cbv zeta; ws. Qed.
Global Hint Resolve W_em_state_machine W_analyze_anchor W_analyze_tag_loop : ww.
Lemma W_analyze_tag a b : WS (analyze_tag a b). Proof. wu analyze_tag. Qed.
Global Hint Resolve W_analyze_tag : ww.
Lemma W_analyze_opt_anchor a : WS (analyze_opt_anchor a). Proof. wu analyze_opt_anchor. Qed.
Lemma W_analyze_opt_tag a b c : WS (analyze_opt_tag a b c). Proof. wu analyze_opt_tag. Qed.
Global Hint Resolve W_analyze_opt_anchor W_analyze_opt_tag : ww.
Lemma W_analyze_event e tds : WS (analyze_event e tds). Proof. wu analyze_event. Qed.
Global Hint Resolve W_analyze_event : ww.
Lemma W_emit_one e : WS (emit_one e).
Proof. unfold emit_one. cbv zeta. ws. apply W_modify. intros s. destruct (is_empty _); reflexivity. Qed.
Lemma W_needs : WS needs_mode_events.
Proof. apply W_raw. intros s. unfold needs_mode_events. destruct (em_events s); [cbn; auto|]. destruct (ready _); cbn; auto. Qed.
Global Hint Resolve W_emit_one W_needs : ww.
Lemma W_emit e : WS (emit e).
Proof.
  unfold emit. ws. intros s. apply (Fp_loopM write_failures no_enc). intros _. ws.
Qed.
Global Hint Resolve W_emit : ww.
Lemma W_open : WS emitter_open. Proof. wu emitter_open. Qed.
Lemma W_close : WS emitter_close. Proof. wu emitter_close. Qed.
Global Hint Resolve W_open W_close : ww.

(** ** Dump *)
Lemma W_reset : WS reset_anchors. Proof. wu reset_anchors. Qed.
Lemma W_get_anchors i : WS (get_anchors i).
Proof. apply W_raw. intros s. unfold get_anchors. destruct (vec_index i); [|cbn; auto]. destruct (nth_error _ _); cbn; auto. Qed.
Lemma W_put_anchors i a : WS (put_anchors i a).
Proof. unfold put_anchors. apply W_modify. intros s. destruct (vec_index i); reflexivity. Qed.
Global Hint Resolve W_reset W_get_anchors W_put_anchors : ww.
Global Hint Extern 2 (Fp _ _ (iterD _ _)) => apply W_iterD; intros; ws : ww.
Lemma W_anchor_node_sub i : WS (anchor_node_sub i). Proof. wu anchor_node_sub. Qed.
Global Hint Resolve W_anchor_node_sub : ww.
Lemma W_anchor_node n i : WS (anchor_node n i). Proof. wu anchor_node. Qed.
Global Hint Resolve W_anchor_node : ww.
Definition d_failures (d : dst) : list N := write_failures (ds_em d).
Lemma W_on_em {A} (m : M est A) : WS m -> Fp d_failures no_enc (on_em m).
Proof.
  intros H d. specialize (H (ds_em d)). unfold Fps, on_em in *. destruct (m (ds_em d)) as [r s]. exact H.
Qed.
Lemma W_dmodify f : (forall s, ds_em (f s) = ds_em s) -> Fp d_failures no_enc (modify f).
Proof. intros H. apply Fp_modify. intros s. unfold d_failures. rewrite H. auto. Qed.
Lemma W_emit_data x : Fp d_failures no_enc (emit_data x).
Proof. apply W_on_em, W_emit. Qed.
Lemma W_dump_node n : forall i, Fp d_failures no_enc (dump_node n i).
Proof.
  induction n as [|n IH]; intros i; cbn [dump_node].
  - intros d. unfold Fps. cbn. split; [reflexivity|]. split; [discriminate|auto].
  - cbv zeta. destruct (negb _); [apply Fp_panics|]. apply Fp_bind; [apply Fp_get|intros d]. destruct (nth_error _ _) as [nd|]; [|apply Fp_panics].
    apply Fp_bind; [apply W_on_em, W_get_anchors|intros a]. destruct (an_serialized a).
    { destruct (if (an_anchor a =? 0)%Z then _ else _); [apply W_emit_data|apply Fp_panics]. }
    apply Fp_bind; [apply W_on_em, W_put_anchors|intros _]. apply Fp_bind; [apply W_dmodify; reflexivity|intros _].
    destruct (n_data nd).
    + apply Fp_panics.
    + apply W_emit_data.
    + apply Fp_bind; [apply W_emit_data|intros _]. apply Fp_bind; [|intros _; apply W_emit_data]. apply W_iterD. exact IH.
    + apply Fp_bind; [apply W_emit_data|intros _]. apply Fp_bind; [|intros _; apply W_emit_data]. apply W_iterD. intros p.
      apply Fp_bind; [apply IH|intros _; apply IH].
Qed.
Lemma W_run_dump nodes m : Fp d_failures no_enc m -> WS (run_dump nodes m).
Proof. intros H s. specialize (H (Mk_dst s nodes)). unfold Fps, run_dump in *. destruct (m _) as [r d]. exact H. Qed.
Lemma W_dump d : WS (dump d).
Proof.
  unfold dump. apply Fp_bind; [apply Fp_get|intros s0]. apply Fp_bind.
  - destruct (em_opened s0); [apply Fp_ret|]. intros s. pose proof (W_open s) as H. unfold Fps in *.
    destruct (emitter_open s) as [[u|e|p|] s']; cbn [fst snd] in *; try exact H.
  - intros _. apply Fp_bind; [|intros; apply W_reset]. destruct (is_empty _); [apply W_close|].
    ws. apply W_run_dump, W_dump_node.
Qed.
