(** DumpOpen.v -- emitting events does not depend on the flags of [Emitter::open] and [Emitter::close]. *)
From Verif Require Import Base Utf Chars EState Emitter Document Api.

Definition wo (A l : bool) (s : est) : est := set_em_opened A (set_em_closed l s).
Definition OC {X} (m : M est X) : Prop := forall s A l, m (wo A l s) = let (r, s') := m s in (r, wo A l s').

Lemma O_raw {X} (m : M est X) : (forall s A l, m (wo A l s) = let (r, s') := m s in (r, wo A l s')) -> OC m. Proof. auto. Qed.
Lemma O_ret {X} (x : X) : OC (ret x). Proof. intros s A l. reflexivity. Qed.
Lemma O_fail {X} (x : error) : OC (@fail est X x). Proof. intros s A l. reflexivity. Qed.
Lemma O_panics {X} (x : panic) : OC (@panics est X x). Proof. intros s A l. reflexivity. Qed.
Lemma O_err {X} x : OC (@emitter_error X x). Proof. intros s A l. reflexivity. Qed.
Lemma O_modify f : (forall s A l, f (wo A l s) = wo A l (f s)) -> OC (modify f).
Proof. intros H s A l. unfold modify. rewrite H. reflexivity. Qed.
Lemma O_bind {X Y} (m : M est X) (k : X -> M est Y) : OC m -> (forall x, OC (k x)) -> OC (bind m k).
Proof. intros H1 H2 s A l. unfold bind. rewrite H1. destruct (m s) as [[x|x|x|] s']; [apply H2|reflexivity..]. Qed.
Lemma O_get {Y} (k : est -> M est Y) : (forall s A l, k (wo A l s) = k s) -> (forall x, OC (k x)) -> OC (bind get k).
Proof. intros H1 H2 s A l. unfold bind, get. rewrite H1. apply H2. Qed.
Lemma O_write_all l : OC (write_all_m l).
Proof.
  intros s A k. unfold write_all_m. change (em_writer (wo A k s)) with (em_writer s). destruct (em_writer s) as [w|]; [|reflexivity].
  destruct (write_all l w) as [[x|] w']; reflexivity.
Qed.
Create HintDb oo.
Global Hint Resolve O_write_all : oo.
Ltac o1 :=
  lazymatch goal with
  | |- OC (ret _) => apply O_ret
  | |- OC (fail _) => apply O_fail
  | |- OC (emitter_error _) => apply O_err
  | |- OC (panics _) => apply O_panics
  | |- OC (modify _) => apply O_modify; intros; reflexivity
  | |- OC (bind get _) => apply O_get; [intros; reflexivity|intros]
  | |- OC (bind _ _) => apply O_bind; [|intros]
  | |- OC (when _ _) => unfold when
  | |- OC (let '(_, _) := ?x in _) => destruct x
  | |- OC (match e_data ?t with _ => _ end) => let x := fresh "x" in generalize (e_data t); intros x; destruct x
  | |- OC (match ?x with _ => _ end) => destruct x
  end.
Ltac os_ := repeat first [ solve [auto with oo nocore] | o1 ].
Ltac ou f := unfold f; cbv zeta; os_.
Lemma O_iterM {A} (f : A -> M est unit) l : (forall x, OC (f x)) -> OC (iterM f l).
Proof. intros H. induction l as [|x l IH]; cbn [iterM]; os_. Qed.
Global Hint Extern 2 (OC (iterM _ _)) => apply O_iterM; intros; os_ : oo.

Lemma O_flush : OC flush. Proof. ou flush. Qed.
Lemma O_out l : OC (out l). Proof. ou out. Qed.
Lemma O_add n : OC (add_column n). Proof. ou add_column. Qed.
Lemma O_nl : OC new_line. Proof. ou new_line. Qed.
Global Hint Resolve O_flush O_out O_add O_nl : oo.
Lemma O_fin : OC flush_if_needed. Proof. ou flush_if_needed. Qed.
Global Hint Resolve O_fin : oo.
Lemma O_put x : OC (put x). Proof. ou put. Qed.
Lemma O_put_break : OC put_break. Proof. ou put_break. Qed.
Lemma O_write_str x : OC (write_str x). Proof. ou write_str. Qed.
Lemma O_write_char x : OC (write_char x). Proof. ou write_char. Qed.
Global Hint Resolve O_put O_put_break O_write_str O_write_char : oo.
Lemma O_write_break x : OC (write_break x). Proof. ou write_break. Qed.
Lemma O_put_spaces n : OC (put_spaces n). Proof. induction n; cbn [put_spaces]; os_. Qed.
Lemma O_set_ws a b : OC (set_ws a b). Proof. ou set_ws. Qed.
Lemma O_set_indention a : OC (set_indention a). Proof. ou set_indention. Qed.
Global Hint Resolve O_write_break O_put_spaces O_set_ws O_set_indention : oo.
Lemma O_write_indent : OC write_indent. Proof. ou write_indent. Qed.
Lemma O_write_indicator a b c d : OC (write_indicator a b c d). Proof. ou write_indicator. Qed.
Lemma O_write_anchor v : OC (write_anchor v). Proof. ou write_anchor. Qed.
Lemma O_write_tag_handle v : OC (write_tag_handle v). Proof. ou write_tag_handle. Qed.
Lemma O_write_tag_content v b : OC (write_tag_content v b). Proof. ou write_tag_content. Qed.
Lemma O_write_bom : OC write_bom. Proof. ou write_bom. Qed.
Global Hint Resolve O_write_indent O_write_indicator O_write_anchor O_write_tag_handle O_write_tag_content O_write_bom : oo.
Lemma O_plain_loop a l : forall b c, OC (plain_loop a b c l).
Proof. induction l as [|x l IH]; intros b c; cbn [plain_loop]; os_. Qed.
Lemma O_single_loop a l : forall b c d, OC (single_loop a b c d l).
Proof. induction l as [|x l IH]; intros b c d; cbn [single_loop]; os_. Qed.
Lemma O_double_loop a l : forall b c, OC (double_loop a b c l).
Proof. induction l as [|x l IH]; intros b c; cbn [double_loop]; os_. Qed.
Lemma O_literal_loop l : forall b, OC (literal_loop b l).
Proof. induction l as [|x l IH]; intros b; cbn [literal_loop]; os_. Qed.
Lemma O_folded_loop l : forall b c, OC (folded_loop b c l).
Proof. induction l as [|x l IH]; intros b c; cbn [folded_loop]; cbv zeta; os_. Qed.
Global Hint Resolve O_plain_loop O_single_loop O_double_loop O_literal_loop O_folded_loop : oo.
Lemma O_write_plain_scalar v b : OC (write_plain_scalar v b). Proof. ou write_plain_scalar. Qed.
Lemma O_write_single_quoted_scalar v b : OC (write_single_quoted_scalar v b). Proof. ou write_single_quoted_scalar. Qed.
Lemma O_write_double_quoted_scalar v b : OC (write_double_quoted_scalar v b). Proof. ou write_double_quoted_scalar. Qed.
Lemma O_write_block_scalar_hints v : OC (write_block_scalar_hints v). Proof. ou write_block_scalar_hints. Qed.
Global Hint Resolve O_write_plain_scalar O_write_single_quoted_scalar O_write_double_quoted_scalar O_write_block_scalar_hints : oo.
Lemma O_write_literal_scalar v : OC (write_literal_scalar v). Proof. ou write_literal_scalar. Qed.
Lemma O_write_folded_scalar v : OC (write_folded_scalar v). Proof. ou write_folded_scalar. Qed.
Global Hint Resolve O_write_literal_scalar O_write_folded_scalar : oo.
Lemma O_increase_indent a b : OC (increase_indent a b).
Proof.
  unfold increase_indent. apply O_modify. intros s A l. cbv zeta. change (em_indent (set_em_indents ?x (wo A l s))) with (em_indent s). change (em_indent (set_em_indents ?x s)) with (em_indent s).
  destruct (em_indent s <? 0)%Z; [reflexivity|]. destruct (negb b); reflexivity.
Qed.
Lemma O_pop_indent : OC pop_indent.
Proof. intros s A l. unfold pop_indent. change (em_indents (wo A l s)) with (em_indents s). destruct (em_indents s); reflexivity. Qed.
Lemma O_pop_estate : OC pop_estate.
Proof. intros s A l. unfold pop_estate. change (em_states (wo A l s)) with (em_states s). destruct (em_states s); reflexivity. Qed.
Lemma O_goto x : OC (goto_estate x). Proof. ou goto_estate. Qed.
Lemma O_push x : OC (push_estate x). Proof. ou push_estate. Qed.
Global Hint Resolve O_increase_indent O_pop_indent O_pop_estate O_goto O_push : oo.
Lemma O_append v b : OC (em_append_tag_directive v b). Proof. ou em_append_tag_directive. Qed.
Lemma O_check_simple_key e an : OC (check_simple_key e an). Proof. ou check_simple_key. Qed.
Lemma O_select a b c d e : OC (select_scalar_style a b c d e). Proof. ou select_scalar_style. Qed.
Lemma O_process_anchor a : OC (process_anchor a). Proof. ou process_anchor. Qed.
Lemma O_process_tag a : OC (process_tag a). Proof. ou process_tag. Qed.
Lemma O_process_scalar a b : OC (process_scalar a b). Proof. ou process_scalar. Qed.
Global Hint Resolve O_append O_check_simple_key O_select O_process_anchor O_process_tag O_process_scalar : oo.
Lemma O_emit_alias a : OC (emit_alias a). Proof. ou emit_alias. Qed.
Lemma O_emit_scalar a b c d : OC (emit_scalar a b c d). Proof. ou emit_scalar. Qed.
Lemma O_emit_sequence_start a b c : OC (emit_sequence_start a b c). Proof. ou emit_sequence_start. Qed.
Lemma O_emit_mapping_start a b c : OC (emit_mapping_start a b c). Proof. ou emit_mapping_start. Qed.
Global Hint Resolve O_emit_alias O_emit_scalar O_emit_sequence_start O_emit_mapping_start : oo.
Lemma O_emit_node e a b c d an : OC (emit_node e a b c d an). Proof. ou emit_node. Qed.
Global Hint Resolve O_emit_node : oo.
Lemma O_analyze_vd v : OC (analyze_version_directive v). Proof. ou analyze_version_directive. Qed.
Lemma O_analyze_td v : OC (analyze_tag_directive v). Proof. ou analyze_tag_directive. Qed.
Global Hint Resolve O_analyze_vd O_analyze_td : oo.
Lemma commute_if (c : est -> bool) (f : est -> est) s A l : c (wo A l s) = c s -> f (wo A l s) = wo A l (f s) ->
  (if c (wo A l s) then f (wo A l s) else wo A l s) = wo A l (if c s then f s else s).
Proof. intros -> ->. destruct (c s); reflexivity. Qed.
Definition cif (c : est -> bool) (f : est -> est) (s : est) : est := if c s then f s else s.
Definition lb (s : est) : est := match em_line_break s with BrAny => set_em_line_break BrLn s | _ => s end.
Lemma normalise_steps e s : normalise_settings e s =
  set_em_indention true (set_em_whitespace true (set_em_column 0%Z (set_em_line 0%Z (set_em_indent (-1)%Z
   (lb
   (cif (fun s => em_best_width s <? 0)%Z (set_em_best_width 2147483647%Z)
   (cif (fun s => (0 <=? em_best_width s) && (em_best_width s <=? em_best_indent s * 2))%Z (set_em_best_width 80%Z)
   (cif (fun s => (em_best_indent s <? 2) || (9 <? em_best_indent s))%Z (set_em_best_indent 2%Z)
   (cif (fun s => encoding_eqb (em_encoding s) EncAny) (set_em_encoding Utf8)
   (cif (fun s => encoding_eqb (em_encoding s) EncAny) (set_em_encoding e) s)))))))))).
Proof.
  reflexivity.
Qed.
Lemma lb_wa s A l : lb (wo A l s) = wo A l (lb s).
Proof. unfold lb. change (em_line_break (wo A l s)) with (em_line_break s). destruct (em_line_break s); reflexivity. Qed.
Lemma cif_wa c f s A l : c (wo A l s) = c s -> f (wo A l s) = wo A l (f s) -> cif c f (wo A l s) = wo A l (cif c f s).
Proof. apply commute_if. Qed.
Lemma normalise_wa e s A l : normalise_settings e (wo A l s) = wo A l (normalise_settings e s).
Proof.
  rewrite !normalise_steps. rewrite !cif_wa by reflexivity. rewrite lb_wa. reflexivity.
Qed.
Lemma O_emit_stream_start e : OC (emit_stream_start e).
Proof. unfold emit_stream_start. os_. apply O_modify. apply normalise_wa. Qed.
Lemma O_emit_document_start e b : OC (emit_document_start e b). Proof. ou emit_document_start. Qed.
Lemma O_emit_document_content e b : OC (emit_document_content e b). Proof. ou emit_document_content. Qed.
Lemma O_emit_document_end e : OC (emit_document_end e). Proof. ou emit_document_end. Qed.
Lemma O_add_flow_level n : OC (add_flow_level n). Proof. ou add_flow_level. Qed.
Lemma O_wrap_line : OC wrap_line. Proof. ou wrap_line. Qed.
Global Hint Resolve O_emit_stream_start O_emit_document_start O_emit_document_content O_emit_document_end O_add_flow_level O_wrap_line : oo.
Lemma O_close_flow a b : OC (close_flow a b). Proof. ou close_flow. Qed.
Global Hint Resolve O_close_flow : oo.
Lemma O_fsi e b an : OC (emit_flow_sequence_item e b an). Proof. ou emit_flow_sequence_item. Qed.
Lemma O_fmk e b an : OC (emit_flow_mapping_key e b an). Proof. ou emit_flow_mapping_key. Qed.
Lemma O_fmv e b an : OC (emit_flow_mapping_value e b an). Proof. ou emit_flow_mapping_value. Qed.
Lemma O_bsi e b an : OC (emit_block_sequence_item e b an). Proof. ou emit_block_sequence_item. Qed.
Lemma O_bmk e b an : OC (emit_block_mapping_key e b an). Proof. ou emit_block_mapping_key. Qed.
Lemma O_bmv e b an : OC (emit_block_mapping_value e b an). Proof. ou emit_block_mapping_value. Qed.
Global Hint Resolve O_fsi O_fmk O_fmv O_bsi O_bmk O_bmv : oo.
Lemma O_em_state_machine e an : OC (em_state_machine e an). Proof. ou em_state_machine. Qed.
Lemma O_analyze_anchor a b : OC (analyze_anchor a b). Proof. ou analyze_anchor. Qed.
Lemma O_analyze_tag_loop t l : OC (analyze_tag_loop t l).
Proof. induction l as [|x l IH]; cbn [analyze_tag_loop]; cbv zeta; os_. Qed.
Global Hint Resolve O_em_state_machine O_analyze_anchor O_analyze_tag_loop : oo.
Lemma O_analyze_tag a b : OC (analyze_tag a b). Proof. ou analyze_tag. Qed.
Global Hint Resolve O_analyze_tag : oo.
Lemma O_analyze_opt_anchor a : OC (analyze_opt_anchor a). Proof. ou analyze_opt_anchor. Qed.
Lemma O_analyze_opt_tag a b c : OC (analyze_opt_tag a b c). Proof. ou analyze_opt_tag. Qed.
Global Hint Resolve O_analyze_opt_anchor O_analyze_opt_tag : oo.
Lemma O_analyze_event e tds : OC (analyze_event e tds). Proof. ou analyze_event. Qed.
Global Hint Resolve O_analyze_event : oo.
Lemma O_emit_one e : OC (emit_one e).
Proof. unfold emit_one. cbv zeta. os_. apply O_modify. intros s A l. change (em_tag_directives (wo A l s)) with (em_tag_directives s). destruct (is_empty (em_tag_directives s)); reflexivity. Qed.
Lemma O_needs : OC needs_mode_events.
Proof. intros s A l. unfold needs_mode_events. change (em_events (wo A l s)) with (em_events s). destruct (em_events s); [reflexivity|]. destruct (ready _); reflexivity. Qed.
Global Hint Resolve O_emit_one O_needs : oo.
Lemma O_loopM {X Y} (f : X -> M est (X + Y)) n : (forall x, OC (f x)) -> forall x, OC (loopM n f x).
Proof.
  intros H. induction n as [|n IH]; intros x; cbn [loopM]; [intros s A l; reflexivity|].
  apply O_bind; [apply H|]. intros [y|y]; [apply IH|apply O_ret].
Qed.
Lemma O_emit e : OC (emit e).
Proof.
  unfold emit. apply O_bind; [os_|]. intros _ s A l. change (em_events (wo A l s)) with (em_events s). apply O_loopM. intros _. os_.
Qed.
Global Hint Resolve O_emit : oo.
