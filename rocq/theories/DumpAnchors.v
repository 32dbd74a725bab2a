(** DumpAnchors.v -- the emitter proper does not use the tables of [Document::dump] (emitter.rs). *)
From Verif Require Import Base Utf Chars EState Emitter Document Api.

Definition wa (A : list anchors) (l : Z) (s : est) : est := set_em_last_anchor_id l (set_em_anchors A s).
Definition AC {X} (m : M est X) : Prop := forall s A l, m (wa A l s) = let (r, s') := m s in (r, wa A l s').

Lemma A_raw {X} (m : M est X) : (forall s A l, m (wa A l s) = let (r, s') := m s in (r, wa A l s')) -> AC m. Proof. auto. Qed.
Lemma A_ret {X} (x : X) : AC (ret x). Proof. intros s A l. reflexivity. Qed.
Lemma A_fail {X} (x : error) : AC (@fail est X x). Proof. intros s A l. reflexivity. Qed.
Lemma A_panics {X} (x : panic) : AC (@panics est X x). Proof. intros s A l. reflexivity. Qed.
Lemma A_err {X} x : AC (@emitter_error X x). Proof. intros s A l. reflexivity. Qed.
Lemma A_modify f : (forall s A l, f (wa A l s) = wa A l (f s)) -> AC (modify f).
Proof. intros H s A l. unfold modify. rewrite H. reflexivity. Qed.
Lemma A_bind {X Y} (m : M est X) (k : X -> M est Y) : AC m -> (forall x, AC (k x)) -> AC (bind m k).
Proof. intros H1 H2 s A l. unfold bind. rewrite H1. destruct (m s) as [[x|x|x|] s']; [apply H2|reflexivity..]. Qed.
Lemma A_get {Y} (k : est -> M est Y) : (forall s A l, k (wa A l s) = k s) -> (forall x, AC (k x)) -> AC (bind get k).
Proof. intros H1 H2 s A l. unfold bind, get. rewrite H1. apply H2. Qed.
Lemma A_write_all l : AC (write_all_m l).
Proof.
  intros s A k. unfold write_all_m. change (em_writer (wa A k s)) with (em_writer s). destruct (em_writer s) as [w|]; [|reflexivity].
  destruct (write_all l w) as [[x|] w']; reflexivity.
Qed.
Create HintDb aa.
Global Hint Resolve A_write_all : aa.
Ltac a1 :=
  lazymatch goal with
  | |- AC (ret _) => apply A_ret
  | |- AC (fail _) => apply A_fail
  | |- AC (emitter_error _) => apply A_err
  | |- AC (panics _) => apply A_panics
  | |- AC (modify _) => apply A_modify; intros; reflexivity
  | |- AC (bind get _) => apply A_get; [intros; reflexivity|intros]
  | |- AC (bind _ _) => apply A_bind; [|intros]
  | |- AC (when _ _) => unfold when
  | |- AC (let '(_, _) := ?x in _) => destruct x
  | |- AC (match e_data ?t with _ => _ end) => let x := fresh "x" in generalize (e_data t); intros x; destruct x
  | |- AC (match ?x with _ => _ end) => destruct x
  end.
Ltac as_ := repeat first [ solve [auto with aa nocore] | a1 ].
Ltac au f := unfold f; cbv zeta; as_.
Lemma A_iterM {A} (f : A -> M est unit) l : (forall x, AC (f x)) -> AC (iterM f l).
Proof. intros H. induction l as [|x l IH]; cbn [iterM]; as_. Qed.
Global Hint Extern 2 (AC (iterM _ _)) => apply A_iterM; intros; as_ : aa.

Lemma A_flush : AC flush. Proof. au flush. Qed.
Lemma A_out l : AC (out l). Proof. au out. Qed.
Lemma A_add n : AC (add_column n). Proof. au add_column. Qed.
Lemma A_nl : AC new_line. Proof. au new_line. Qed.
Global Hint Resolve A_flush A_out A_add A_nl : aa.
Lemma A_fin : AC flush_if_needed. Proof. au flush_if_needed. Qed.
Global Hint Resolve A_fin : aa.
Lemma A_put x : AC (put x). Proof. au put. Qed.
Lemma A_put_break : AC put_break. Proof. au put_break. Qed.
Lemma A_write_str x : AC (write_str x). Proof. au write_str. Qed.
Lemma A_write_char x : AC (write_char x). Proof. au write_char. Qed.
Global Hint Resolve A_put A_put_break A_write_str A_write_char : aa.
Lemma A_write_break x : AC (write_break x). Proof. au write_break. Qed.
Lemma A_put_spaces n : AC (put_spaces n). Proof. induction n; cbn [put_spaces]; as_. Qed.
Lemma A_set_ws a b : AC (set_ws a b). Proof. au set_ws. Qed.
Lemma A_set_indention a : AC (set_indention a). Proof. au set_indention. Qed.
Global Hint Resolve A_write_break A_put_spaces A_set_ws A_set_indention : aa.
Lemma A_write_indent : AC write_indent. Proof. au write_indent. Qed.
Lemma A_write_indicator a b c d : AC (write_indicator a b c d). Proof. au write_indicator. Qed.
Lemma A_write_anchor v : AC (write_anchor v). Proof. au write_anchor. Qed.
Lemma A_write_tag_handle v : AC (write_tag_handle v). Proof. au write_tag_handle. Qed.
Lemma A_write_tag_content v b : AC (write_tag_content v b). Proof. au write_tag_content. Qed.
Lemma A_write_bom : AC write_bom. Proof. au write_bom. Qed.
Global Hint Resolve A_write_indent A_write_indicator A_write_anchor A_write_tag_handle A_write_tag_content A_write_bom : aa.
Lemma A_plain_loop a l : forall b c, AC (plain_loop a b c l).
Proof. induction l as [|x l IH]; intros b c; cbn [plain_loop]; as_. Qed.
Lemma A_single_loop a l : forall b c d, AC (single_loop a b c d l).
Proof. induction l as [|x l IH]; intros b c d; cbn [single_loop]; as_. Qed.
Lemma A_double_loop a l : forall b c, AC (double_loop a b c l).
Proof. induction l as [|x l IH]; intros b c; cbn [double_loop]; as_. Qed.
Lemma A_literal_loop l : forall b, AC (literal_loop b l).
Proof. induction l as [|x l IH]; intros b; cbn [literal_loop]; as_. Qed.
Lemma A_folded_loop l : forall b c, AC (folded_loop b c l).
Proof. induction l as [|x l IH]; intros b c; cbn [folded_loop]; cbv zeta; as_. Qed.
Global Hint Resolve A_plain_loop A_single_loop A_double_loop A_literal_loop A_folded_loop : aa.
Lemma A_write_plain_scalar v b : AC (write_plain_scalar v b). Proof. au write_plain_scalar. Qed.
Lemma A_write_single_quoted_scalar v b : AC (write_single_quoted_scalar v b). Proof. au write_single_quoted_scalar. Qed.
Lemma A_write_double_quoted_scalar v b : AC (write_double_quoted_scalar v b). Proof. au write_double_quoted_scalar. Qed.
Lemma A_write_block_scalar_hints v : AC (write_block_scalar_hints v). Proof. au write_block_scalar_hints. Qed.
Global Hint Resolve A_write_plain_scalar A_write_single_quoted_scalar A_write_double_quoted_scalar A_write_block_scalar_hints : aa.
Lemma A_write_literal_scalar v : AC (write_literal_scalar v). Proof. au write_literal_scalar. Qed.
Lemma A_write_folded_scalar v : AC (write_folded_scalar v). Proof. au write_folded_scalar. Qed.
Global Hint Resolve A_write_literal_scalar A_write_folded_scalar : aa.
Lemma A_increase_indent a b : AC (increase_indent a b).
Proof.
  unfold increase_indent. apply A_modify. intros s A l. cbv zeta. change (em_indent (set_em_indents ?x (wa A l s))) with (em_indent s). change (em_indent (set_em_indents ?x s)) with (em_indent s).
  destruct (em_indent s <? 0)%Z; [reflexivity|]. destruct (negb b); reflexivity.
Qed.
Lemma A_pop_indent : AC pop_indent.
Proof. intros s A l. unfold pop_indent. change (em_indents (wa A l s)) with (em_indents s). destruct (em_indents s); reflexivity. Qed.
Lemma A_pop_estate : AC pop_estate.
Proof. intros s A l. unfold pop_estate. change (em_states (wa A l s)) with (em_states s). destruct (em_states s); reflexivity. Qed.
Lemma A_goto x : AC (goto_estate x). Proof. au goto_estate. Qed.
Lemma A_push x : AC (push_estate x). Proof. au push_estate. Qed.
Global Hint Resolve A_increase_indent A_pop_indent A_pop_estate A_goto A_push : aa.
Lemma A_append v b : AC (em_append_tag_directive v b). Proof. au em_append_tag_directive. Qed.
Lemma A_check_simple_key e an : AC (check_simple_key e an). Proof. au check_simple_key. Qed.
Lemma A_select a b c d e : AC (select_scalar_style a b c d e). Proof. au select_scalar_style. Qed.
Lemma A_process_anchor a : AC (process_anchor a). Proof. au process_anchor. Qed.
Lemma A_process_tag a : AC (process_tag a). Proof. au process_tag. Qed.
Lemma A_process_scalar a b : AC (process_scalar a b). Proof. au process_scalar. Qed.
Global Hint Resolve A_append A_check_simple_key A_select A_process_anchor A_process_tag A_process_scalar : aa.
Lemma A_emit_alias a : AC (emit_alias a). Proof. au emit_alias. Qed.
Lemma A_emit_scalar a b c d : AC (emit_scalar a b c d). Proof. au emit_scalar. Qed.
Lemma A_emit_sequence_start a b c : AC (emit_sequence_start a b c). Proof. au emit_sequence_start. Qed.
Lemma A_emit_mapping_start a b c : AC (emit_mapping_start a b c). Proof. au emit_mapping_start. Qed.
Global Hint Resolve A_emit_alias A_emit_scalar A_emit_sequence_start A_emit_mapping_start : aa.
Lemma A_emit_node e a b c d an : AC (emit_node e a b c d an). Proof. au emit_node. Qed.
Global Hint Resolve A_emit_node : aa.
Lemma A_analyze_vd v : AC (analyze_version_directive v). Proof. au analyze_version_directive. Qed.
Lemma A_analyze_td v : AC (analyze_tag_directive v). Proof. au analyze_tag_directive. Qed.
Global Hint Resolve A_analyze_vd A_analyze_td : aa.
Lemma commute_if (c : est -> bool) (f : est -> est) s A l : c (wa A l s) = c s -> f (wa A l s) = wa A l (f s) ->
  (if c (wa A l s) then f (wa A l s) else wa A l s) = wa A l (if c s then f s else s).
Proof. intros -> ->. destruct (c s); reflexivity. Qed.
Definition cif (c : est -> bool) (f : est -> est) (s : est) : est := if c s then f s else s.
Definition lb (s : est) : est := match em_line_break s with BrAny => set_em_line_break BrLn s | _ => s end.
Lemma normalise_steps e s : normalise_settings e s =
  set_em_indention true (set_em_whitespace true (set_em_column 0%Z (set_em_line 0%Z (set_em_indent (-1)%Z
   (lb
   (cif (fun s => em_best_width s <? 0)%Z (set_em_best_width 2147483647%Z)
   (cif (fun s => (0 <=? em_best_width s) && (em_best_width s <=? em_best_indent s * 2))%Z (set_em_best_width 80%Z)
   (cif (fun s => (em_best_indent s <? 2) || (9 <? em_best_indent s))%Z (set_em_best_indent 2%Z)
   (cif (fun s => encoding_eqb (em_encoding s) EncAny) (set_em_encoding Utf8)
   (cif (fun s => encoding_eqb (em_encoding s) EncAny) (set_em_encoding e) s)))))))))).
Proof.
  reflexivity.
Qed.
Lemma lb_wa s A l : lb (wa A l s) = wa A l (lb s).
Proof. unfold lb. change (em_line_break (wa A l s)) with (em_line_break s). destruct (em_line_break s); reflexivity. Qed.
Lemma cif_wa c f s A l : c (wa A l s) = c s -> f (wa A l s) = wa A l (f s) -> cif c f (wa A l s) = wa A l (cif c f s).
Proof. apply commute_if. Qed.
Lemma normalise_wa e s A l : normalise_settings e (wa A l s) = wa A l (normalise_settings e s).
Proof.
  rewrite !normalise_steps. rewrite !cif_wa by reflexivity. rewrite lb_wa. reflexivity.
Qed.
Lemma A_emit_stream_start e : AC (emit_stream_start e).
Proof. unfold emit_stream_start. as_. apply A_modify. apply normalise_wa. Qed.
Lemma A_emit_document_start e b : AC (emit_document_start e b). Proof. au emit_document_start. Qed.
Lemma A_emit_document_content e b : AC (emit_document_content e b). Proof. au emit_document_content. Qed.
Lemma A_emit_document_end e : AC (emit_document_end e). Proof. au emit_document_end. Qed.
Lemma A_add_flow_level n : AC (add_flow_level n). Proof. au add_flow_level. Qed.
Lemma A_wrap_line : AC wrap_line. Proof. au wrap_line. Qed.
Global Hint Resolve A_emit_stream_start A_emit_document_start A_emit_document_content A_emit_document_end A_add_flow_level A_wrap_line : aa.
Lemma A_close_flow a b : AC (close_flow a b). Proof. au close_flow. Qed.
Global Hint Resolve A_close_flow : aa.
Lemma A_fsi e b an : AC (emit_flow_sequence_item e b an). Proof. au emit_flow_sequence_item. Qed.
Lemma A_fmk e b an : AC (emit_flow_mapping_key e b an). Proof. au emit_flow_mapping_key. Qed.
Lemma A_fmv e b an : AC (emit_flow_mapping_value e b an). Proof. au emit_flow_mapping_value. Qed.
Lemma A_bsi e b an : AC (emit_block_sequence_item e b an). Proof. au emit_block_sequence_item. Qed.
Lemma A_bmk e b an : AC (emit_block_mapping_key e b an). Proof. au emit_block_mapping_key. Qed.
Lemma A_bmv e b an : AC (emit_block_mapping_value e b an). Proof. au emit_block_mapping_value. Qed.
Global Hint Resolve A_fsi A_fmk A_fmv A_bsi A_bmk A_bmv : aa.
Lemma A_em_state_machine e an : AC (em_state_machine e an). Proof. au em_state_machine. Qed.
Lemma A_analyze_anchor a b : AC (analyze_anchor a b). Proof. au analyze_anchor. Qed.
Lemma A_analyze_tag_loop t l : AC (analyze_tag_loop t l).
Proof. induction l as [|x l IH]; cbn [analyze_tag_loop]; cbv zeta; as_. Qed.
Global Hint Resolve A_em_state_machine A_analyze_anchor A_analyze_tag_loop : aa.
Lemma A_analyze_tag a b : AC (analyze_tag a b). Proof. au analyze_tag. Qed.
Global Hint Resolve A_analyze_tag : aa.
Lemma A_analyze_opt_anchor a : AC (analyze_opt_anchor a). Proof. au analyze_opt_anchor. Qed.
Lemma A_analyze_opt_tag a b c : AC (analyze_opt_tag a b c). Proof. au analyze_opt_tag. Qed.
Global Hint Resolve A_analyze_opt_anchor A_analyze_opt_tag : aa.
Lemma A_analyze_event e tds : AC (analyze_event e tds). Proof. au analyze_event. Qed.
Global Hint Resolve A_analyze_event : aa.
Lemma A_emit_one e : AC (emit_one e).
Proof. unfold emit_one. cbv zeta. as_. apply A_modify. intros s A l. change (em_tag_directives (wa A l s)) with (em_tag_directives s). destruct (is_empty (em_tag_directives s)); reflexivity. Qed.
Lemma A_needs : AC needs_mode_events.
Proof. intros s A l. unfold needs_mode_events. change (em_events (wa A l s)) with (em_events s). destruct (em_events s); [reflexivity|]. destruct (ready _); reflexivity. Qed.
Global Hint Resolve A_emit_one A_needs : aa.
Lemma A_loopM {X Y} (f : X -> M est (X + Y)) n : (forall x, AC (f x)) -> forall x, AC (loopM n f x).
Proof.
  intros H. induction n as [|n IH]; intros x; cbn [loopM]; [intros s A l; reflexivity|].
  apply A_bind; [apply H|]. intros [y|y]; [apply IH|apply A_ret].
Qed.
Lemma A_emit e : AC (emit e).
Proof.
  unfold emit. apply A_bind; [as_|]. intros _ s A l. change (em_events (wa A l s)) with (em_events s). apply A_loopM. intros _. as_.
Qed.
Global Hint Resolve A_emit : aa.
Lemma A_open : AC emitter_open. Proof. au emitter_open. Qed.
Lemma A_close : AC emitter_close. Proof. au emitter_close. Qed.
Global Hint Resolve A_open A_close : aa.

