(** EmitRuns.v -- every operation of the emitter has a text of its own (see EmitText.v). *)
From Verif Require Import Base Utf Chars EState Emitter Document Api EmitText.

Definition nice (c : est) : Prop := em_state c <> EStreamStart /\ ~ In EStreamStart (em_states c).
Definition Jc {A} (m : M est A) (c : est) : Prop := nice c -> exists d r c', runs m c d r c' /\ nice c'.
Definition J {A} (m : M est A) : Prop := forall c, Jc m c.

Lemma J_ret {A} (a : A) : J (ret a). Proof. intros c H. exists [], (Ok a), c. split; [apply runs_ret|exact H]. Qed.
Lemma J_fail {A} x : J (@fail est A x). Proof. intros c H. exists [], (Err x), c. split; [apply runs_fail|exact H]. Qed.
Lemma J_error {A} x : J (@emitter_error A x). Proof. apply J_fail. Qed.
Lemma J_panics {A} x : J (@panics est A x). Proof. intros c H. exists [], (Panic x), c. split; [apply runs_panics|exact H]. Qed.
Lemma Jc_bind {A B} (m : M est A) (k : A -> M est B) c : Jc m c -> (forall a, J (k a)) -> Jc (bind m k) c.
Proof.
  intros H1 H2 H. destruct (H1 H) as (d1 & r1 & c1 & R1 & N1). destruct (is_ok r1) eqn:E.
  - destruct r1 as [a|?|?|]; try discriminate E. destruct (H2 a c1 N1) as (d2 & r2 & c2 & R2 & N2). exists (d1 ++ d2), r2, c2.
    split; [exact (runs_bind _ _ _ _ _ _ _ _ _ R1 R2)|exact N2].
  - exists d1, (recast r1), c1. split; [exact (runs_bind_stop _ _ _ _ _ _ E R1)|exact N1].
Qed.
Lemma J_bind {A B} (m : M est A) (k : A -> M est B) : J m -> (forall a, J (k a)) -> J (bind m k).
Proof. intros H1 H2 c. apply Jc_bind; auto. Qed.
Lemma J_get {A} (k : est -> M est A) : (forall s, k s = k (core s)) -> (forall c, Jc (k c) c) -> J (bind get k).
Proof. intros H1 H2 c H. destruct (H2 c H) as (d & r & c' & R & N). exists d, r, c'. split; [exact (runs_get _ _ _ _ _ H1 R)|exact N]. Qed.
Lemma J_modify f : inner f -> (forall c, nice c -> nice (core (f c))) -> J (modify f).
Proof. intros H1 H2 c H. exists [], (Ok tt), (core (f c)). split; [apply runs_modify, H1|apply H2, H]. Qed.
Lemma J_raw {A} (m : M est A) :
  (forall s, fst (m s) = fst (m (core s)) /\ core (snd (m s)) = core (snd (m (core s))) /\
     em_writer (snd (m s)) = em_writer s /\ em_buffer (snd (m s)) = em_buffer s /\
     em_raw (snd (m s)) = em_raw s /\ em_encoding (snd (m s)) = em_encoding s) ->
  (forall c, nice c -> nice (core (snd (m c)))) -> J m.
Proof. intros H1 H2 c H. exists [], (fst (m c)), (core (snd (m c))). split; [apply runs_raw, H1|apply H2, H]. Qed.
Lemma J_when b m : J m -> J (when b m).
Proof. intros H. destruct b; [exact H|apply J_ret]. Qed.
Lemma J_iterM {A} (f : A -> M est unit) l : (forall x, J (f x)) -> J (iterM f l).
Proof. intros H. induction l as [|x l IH]; cbn [iterM]; [apply J_ret|]. apply J_bind; [apply H|intros _; exact IH]. Qed.
Lemma J_loopM {A B} (f : A -> M est (A + B)) : (forall x, J (f x)) -> forall n x, J (loopM n f x).
Proof.
  intros H. induction n as [|n IH]; intros x; cbn [loopM].
  - intros c Hc. exists [], Fuel, c. split; [apply runs_fuel|exact Hc].
  - apply J_bind; [apply H|]. intros [y|y]; [apply IH|apply J_ret].
Qed.
Lemma J_from {A} (m : M est A) (d : est -> list char) (r : est -> res A) (c' : est -> est) :
  (forall c, runs m c (d c) (r c) (c' c)) -> (forall c, nice c -> nice (c' c)) -> J m.
Proof. intros H1 H2 c H. exists (d c), (r c), (c' c). auto. Qed.

Lemma J_flush : J flush. Proof. apply (J_from _ (fun _ => []) (fun _ => Ok tt) (fun c => c)); [apply runs_flush|auto]. Qed.
Lemma J_flush_if_needed : J flush_if_needed. Proof. apply (J_from _ (fun _ => []) (fun _ => Ok tt) (fun c => c)); [apply runs_flush_if_needed|auto]. Qed.
Lemma J_out l : J (out l). Proof. apply (J_from _ (fun _ => l) (fun _ => Ok tt) (fun c => c)); [apply runs_out|auto]. Qed.
Lemma J_put x : J (put x). Proof. apply (J_from _ (fun _ => [x]) (fun _ => Ok tt) (after_chars 1)); [apply runs_put|auto]. Qed.
Lemma J_write_char x : J (write_char x). Proof. apply J_put. Qed.
Lemma J_write_str x : J (write_str x).
Proof. apply (J_from _ (fun _ => x) (fun _ => Ok tt) (after_chars (Z.of_nat (length x)))); [apply runs_write_str|auto]. Qed.
Lemma J_put_break : J put_break.
Proof. apply (J_from _ (fun c => break_chars (em_line_break c)) (fun _ => Ok tt) after_line); [apply runs_put_break|auto]. Qed.

Create HintDb jj.
Global Hint Resolve J_flush J_flush_if_needed J_out J_put J_write_char J_write_str J_put_break : jj.
Ltac jinner := let s := fresh "s" in intros s; repeat split.
Ltac j1 :=
  lazymatch goal with
  | |- J (ret _) => apply J_ret
  | |- J (fail _) => apply J_fail
  | |- J (emitter_error _) => apply J_error
  | |- J (panics _) => apply J_panics
  | |- J (modify _) => apply J_modify; [jinner|let c := fresh "c" in intros c; exact (fun h => h)]
  | |- J (bind get _) => apply J_get; [intros; reflexivity|let c := fresh "c" in intros c; lazymatch goal with |- Jc ?k ?x => let h := fresh in assert (h : J k); [|exact (h x)] end]
  | |- J (bind _ _) => apply J_bind; [|intros]
  | |- J (when _ _) => apply J_when
  | |- J (iterM _ _) => apply J_iterM; intros
  | |- J (let '(_, _) := ?x in _) => destruct x
  | |- J (match e_data ?t with _ => _ end) =>
            let x := fresh "x" in generalize (e_data t); intros x; destruct x
  | |- J (match ?x with _ => _ end) => destruct x
  end.
Ltac js := repeat first [ solve [auto with jj nocore] | j1 ].
Ltac ju f := unfold f; cbv zeta; js.

Lemma J_write_break x : J (write_break x).
Proof. unfold write_break. js. apply J_modify; [jinner|auto]. Qed.
Lemma J_put_spaces n : J (put_spaces n). Proof. induction n; cbn [put_spaces]; js. Qed.
Lemma J_set_ws a b : J (set_ws a b). Proof. ju set_ws. Qed.
Lemma J_set_indention a : J (set_indention a). Proof. ju set_indention. Qed.
Global Hint Resolve J_write_break J_put_spaces J_set_ws J_set_indention : jj.
Lemma J_write_indent : J write_indent. Proof. ju write_indent. Qed.
Lemma J_write_indicator a b c d : J (write_indicator a b c d). Proof. ju write_indicator. Qed.
Lemma J_write_anchor v : J (write_anchor v). Proof. ju write_anchor. Qed.
Lemma J_write_tag_handle v : J (write_tag_handle v). Proof. ju write_tag_handle. Qed.
Lemma J_write_tag_content v b : J (write_tag_content v b). Proof. ju write_tag_content. Qed.
Global Hint Resolve J_write_indent J_write_indicator J_write_anchor J_write_tag_handle J_write_tag_content : jj.
Lemma J_plain_loop a l : forall b c, J (plain_loop a b c l).
Proof. induction l as [|x l IH]; intros b c; cbn [plain_loop]; js. Qed.
Lemma J_single_loop a l : forall b c d, J (single_loop a b c d l).
Proof. induction l as [|x l IH]; intros b c d; cbn [single_loop]; js. Qed.
Lemma J_double_loop a l : forall b c, J (double_loop a b c l).
Proof. induction l as [|x l IH]; intros b c; cbn [double_loop]; js. Qed.
Lemma J_literal_loop l : forall b, J (literal_loop b l).
Proof. induction l as [|x l IH]; intros b; cbn [literal_loop]; js. Qed.
Lemma J_folded_loop l : forall b c, J (folded_loop b c l).
Proof. induction l as [|x l IH]; intros b c; cbn [folded_loop]; cbv zeta; js. Qed.
Global Hint Resolve J_plain_loop J_single_loop J_double_loop J_literal_loop J_folded_loop : jj.
Lemma J_write_plain_scalar v b : J (write_plain_scalar v b). Proof. ju write_plain_scalar. Qed.
Lemma J_write_single_quoted_scalar v b : J (write_single_quoted_scalar v b). Proof. ju write_single_quoted_scalar. Qed.
Lemma J_write_double_quoted_scalar v b : J (write_double_quoted_scalar v b). Proof. ju write_double_quoted_scalar. Qed.
Lemma J_write_block_scalar_hints v : J (write_block_scalar_hints v). Proof. ju write_block_scalar_hints. Qed.
Global Hint Resolve J_write_plain_scalar J_write_single_quoted_scalar J_write_double_quoted_scalar J_write_block_scalar_hints : jj.
Lemma J_write_literal_scalar v : J (write_literal_scalar v). Proof. ju write_literal_scalar. Qed.
Lemma J_write_folded_scalar v : J (write_folded_scalar v). Proof. ju write_folded_scalar. Qed.
Global Hint Resolve J_write_literal_scalar J_write_folded_scalar : jj.
Lemma J_increase_indent a b : J (increase_indent a b).
Proof.
  unfold increase_indent. apply J_modify.
  - intros s. cbv zeta. cbn [em_indent set_em_indents core set_em_writer set_em_buffer set_em_raw set_em_encoding].
    destruct (em_indent s <? 0)%Z; [repeat split|]. destruct (negb b); repeat split.
  - intros c H. cbv zeta. destruct (_ <? 0)%Z; [exact H|]. destruct (negb b); exact H.
Qed.
Lemma J_pop_indent : J pop_indent.
Proof.
  apply J_raw; [intros s|intros c H]; unfold pop_indent; cbn [core em_indents set_em_writer set_em_buffer set_em_raw set_em_encoding].
  - destruct (em_indents s); repeat split.
  - destruct (em_indents c); exact H.
Qed.
Lemma J_pop_estate : J pop_estate.
Proof.
  apply J_raw; [intros s|intros c H]; unfold pop_estate; cbn [core em_states set_em_writer set_em_buffer set_em_raw set_em_encoding].
  - destruct (em_states s); repeat split.
  - destruct H as [H1 H2]. destruct (em_states c) as [|x l] eqn:E; [split; [exact H1|cbn; rewrite E; exact H2]|]. split; cbn; intros F; apply H2; [left; auto|right; auto].
Qed.
Lemma J_goto x : x <> EStreamStart -> J (goto_estate x).
Proof. intros Hx. unfold goto_estate. apply J_modify; [jinner|]. intros c [H1 H2]. split; [exact Hx|exact H2]. Qed.
Lemma J_push x : x <> EStreamStart -> J (push_estate x).
Proof. intros Hx. unfold push_estate. apply J_modify; [jinner|]. intros c [H1 H2]. split; [exact H1|]. intros [F|F]; [exact (Hx F)|exact (H2 F)]. Qed.
Global Hint Resolve J_increase_indent J_pop_indent J_pop_estate : jj.
Global Hint Extern 1 (J (goto_estate _)) => apply J_goto; discriminate : jj.
Global Hint Extern 1 (J (push_estate _)) => apply J_push; discriminate : jj.
Lemma J_append v b : J (em_append_tag_directive v b). Proof. ju em_append_tag_directive. Qed.
Lemma J_check_simple_key e an : J (check_simple_key e an). Proof. ju check_simple_key. Qed.
Lemma J_select a b c d e : J (select_scalar_style a b c d e).
Proof. ju select_scalar_style. Qed.
Lemma J_process_anchor a : J (process_anchor a). Proof. ju process_anchor. Qed.
Lemma J_process_tag a : J (process_tag a). Proof. ju process_tag. Qed.
Lemma J_process_scalar a b : J (process_scalar a b). Proof. ju process_scalar. Qed.
Global Hint Resolve J_append J_check_simple_key J_select J_process_anchor J_process_tag J_process_scalar : jj.
Lemma J_emit_alias a : J (emit_alias a). Proof. ju emit_alias. Qed.
Lemma J_emit_scalar a b c d : J (emit_scalar a b c d). Proof. ju emit_scalar. Qed.
Lemma J_emit_sequence_start a b c : J (emit_sequence_start a b c).
Proof. ju emit_sequence_start. apply J_goto. destruct (_ || _); discriminate. Qed.
Lemma J_emit_mapping_start a b c : J (emit_mapping_start a b c).
Proof. ju emit_mapping_start. apply J_goto. destruct (_ || _); discriminate. Qed.
Global Hint Resolve J_emit_alias J_emit_scalar J_emit_sequence_start J_emit_mapping_start : jj.
Lemma J_emit_node e a b c d an : J (emit_node e a b c d an). Proof. ju emit_node. Qed.
Global Hint Resolve J_emit_node : jj.
Lemma J_analyze_vd v : J (analyze_version_directive v). Proof. ju analyze_version_directive. Qed.
Lemma J_analyze_td v : J (analyze_tag_directive v). Proof. ju analyze_tag_directive. Qed.
Global Hint Resolve J_analyze_vd J_analyze_td : jj.
Lemma J_emit_document_start e b : J (emit_document_start e b). Proof. ju emit_document_start. Qed.
Lemma J_emit_document_content e b : J (emit_document_content e b). Proof. ju emit_document_content. Qed.
Lemma J_emit_document_end e : J (emit_document_end e). Proof. ju emit_document_end. Qed.
Lemma J_add_flow_level n : J (add_flow_level n). Proof. ju add_flow_level. Qed.
Lemma J_wrap_line : J wrap_line. Proof. ju wrap_line. Qed.
Global Hint Resolve J_emit_document_start J_emit_document_content J_emit_document_end J_add_flow_level J_wrap_line : jj.
Lemma J_close_flow a b : J (close_flow a b). Proof. ju close_flow. Qed.
Global Hint Resolve J_close_flow : jj.
Lemma J_fsi e b an : J (emit_flow_sequence_item e b an). Proof. ju emit_flow_sequence_item. Qed.
Lemma J_fmk e b an : J (emit_flow_mapping_key e b an). Proof. ju emit_flow_mapping_key. Qed.
Lemma J_fmv e b an : J (emit_flow_mapping_value e b an). Proof. ju emit_flow_mapping_value. Qed.
Lemma J_bsi e b an : J (emit_block_sequence_item e b an). Proof. ju emit_block_sequence_item. Qed.
Lemma J_bmk e b an : J (emit_block_mapping_key e b an). Proof. ju emit_block_mapping_key. Qed.
Lemma J_bmv e b an : J (emit_block_mapping_value e b an). Proof. ju emit_block_mapping_value. Qed.
Global Hint Resolve J_fsi J_fmk J_fmv J_bsi J_bmk J_bmv : jj.
Lemma J_em_state_machine e an : J (em_state_machine e an).
Proof.
  unfold em_state_machine. apply J_get; [reflexivity|]. intros c H. revert H.
  destruct (em_state c) eqn:E; intros H; try (destruct H as [H _]; destruct (H E));
  match goal with |- exists d r c', runs ?m _ _ _ _ /\ _ => assert (K : J m) by js; exact (K c H) end.
Qed.
Lemma J_analyze_anchor a b : J (analyze_anchor a b). Proof. ju analyze_anchor. Qed.
Lemma J_analyze_tag_loop t l : J (analyze_tag_loop t l).
Proof. induction l as [|x l IH]; cbn [analyze_tag_loop]; cbv zeta; js. Qed.
Global Hint Resolve J_em_state_machine J_analyze_anchor J_analyze_tag_loop : jj.
Lemma J_analyze_tag a b : J (analyze_tag a b). Proof. ju analyze_tag. Qed.
Global Hint Resolve J_analyze_tag : jj.
Lemma J_analyze_opt_anchor a : J (analyze_opt_anchor a). Proof. ju analyze_opt_anchor. Qed.
Lemma J_analyze_opt_tag a b c : J (analyze_opt_tag a b c). Proof. ju analyze_opt_tag. Qed.
Global Hint Resolve J_analyze_opt_anchor J_analyze_opt_tag : jj.
Lemma J_analyze_event e tds : J (analyze_event e tds). Proof. ju analyze_event. Qed.
Global Hint Resolve J_analyze_event : jj.
Lemma J_emit_one e : J (emit_one e).
Proof.
  unfold emit_one. cbv zeta. js. apply J_modify.
  - intros s. cbn [em_tag_directives core set_em_writer set_em_buffer set_em_raw set_em_encoding].
    destruct (is_empty _); repeat split.
  - intros c0 H. destruct (is_empty _); exact H.
Qed.
Lemma J_needs : J needs_mode_events.
Proof.
  apply J_raw; [intros s|intros c H]; unfold needs_mode_events; cbn [core em_events set_em_writer set_em_buffer set_em_raw set_em_encoding].
  - destruct (em_events s); [repeat split|]. destruct (ready _); repeat split.
  - destruct (em_events c); [exact H|]. destruct (ready _); exact H.
Qed.
Global Hint Resolve J_emit_one J_needs : jj.
Definition emit_loop (n : nat) : M est unit := loopM n (fun _ : unit =>
     o <- needs_mode_events ;;
     match o with
     | None => ret (inr tt)
     | Some e => emit_one e ;; ret (inl tt)
     end) tt.
Lemma J_emit_loop n : J (emit_loop n).
Proof. unfold emit_loop. apply J_loopM. intros _. js. Qed.
Definition enqueue (e : event) : M est unit := modify (fun s => set_em_events (em_events s ++ [e]) s).
Lemma emit_eq e s : emit e s = (enqueue e ;; (s <- get ;; emit_loop (S (length (em_events s))))) s.
Proof. reflexivity. Qed.
Lemma J_emit e : J (emit e).
Proof.
  assert (H : J (enqueue e ;; (s <- get ;; emit_loop (S (length (em_events s)))))).
  { unfold enqueue. js. apply J_emit_loop. }
  intros c N. destruct (H c N) as (d & r & c' & R & N'). exists d, r, c'. split; [|exact N'].
  exact (runs_ext _ _ _ _ _ _ (fun s => eq_sym (emit_eq e s)) R).
Qed.
