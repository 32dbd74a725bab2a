(** Prop_Errors.v -- C56: what the errors say.

    Whatever state a value is in (after whatever calls, results and errors), an error of a call says
    in which layer it arose: the scanner reports errors of reading and scanning, the parser these and
    its own, the loader these and its own; the emitter and [dump] report errors of the emitter and
    of writing.  The text of an error identifies its kind and the position it is about. *)
From Coq Require Import Lia Bool.
From Verif Require Import Base Utf Chars State Reader Scanner Parser EState Emitter Document Api Errors Kinds DumpTree.
Open Scope N_scope.

(** ** Which errors a call can return, in every state *)
Theorem C56_scanner (s s' : sst) e :
  scan s = (Err e, s') \/ scanner_next s = (Err e, s') ->
  (kind e = KReader \/ kind e = KIo \/ kind e = KScanner) /\ problem e <> ""%string.
Proof.
  assert (X : scanner_error e -> (kind e = KReader \/ kind e = KIo \/ kind e = KScanner) /\ problem e <> ""%string).
  { intros [[H|[H|[H|[]]]] Hp]; split; auto. }
  intros [H|H]; apply X; [exact (K_scan _ _ _ H)|exact (K_scanner_next _ _ _ H)].
Qed.
Theorem C56_parser (p p' : pst) e :
  parse p = (Err e, p') \/ parser_next p = (Err e, p') ->
  (kind e = KReader \/ kind e = KIo \/ kind e = KScanner \/ kind e = KParser) /\ problem e <> ""%string.
Proof.
  assert (X : parser_error e -> (kind e = KReader \/ kind e = KIo \/ kind e = KScanner \/ kind e = KParser) /\ problem e <> ""%string).
  { intros [[H|[H|[H|[H|[]]]]] Hp]; split; auto. }
  intros [H|H]; apply X; [exact (K_parse _ _ _ H)|exact (K_parser_next _ _ _ H)].
Qed.
Theorem C56_load (p p' : pst) e :
  load p = (Err e, p') -> kind e <> KEmitter /\ problem e <> ""%string.
Proof. intros H. destruct (K_load _ _ _ H) as [Hk Hp]. split; [|exact Hp]. destruct Hk as [H0|[H0|[H0|[H0|[H0|[]]]]]]; rewrite <- H0; discriminate. Qed.
Theorem C56_emitter (s s' : est) e :
  emitter_open s = (Err e, s') \/ emitter_close s = (Err e, s') \/ flush s = (Err e, s') \/
  (exists v, emit v s = (Err e, s')) \/ (exists d, dump d s = (Err e, s')) ->
  (kind e = KEmitter \/ kind e = KIo) /\ problem e <> ""%string.
Proof.
  assert (X : emitter_errors e -> (kind e = KEmitter \/ kind e = KIo) /\ problem e <> ""%string).
  { intros [[H|[H|[]]] Hp]; split; auto. }
  intros [H|[H|[H|[[v H]|[d H]]]]]; apply X;
    [exact (K_emitter_open _ _ _ H)|exact (K_emitter_close _ _ _ H)|exact (K_flush _ _ _ H)|exact (K_emit v _ _ _ H)|exact (K_dump d _ _ _ H)].
Qed.
(** flush reports errors of writing only. *)
Theorem C56_flush (s s' : est) e : flush s = (Err e, s') -> kind e = KIo.
Proof.
  assert (W : forall l s e s', write_all_m l s = (Err e, s') -> kind e = KIo).
  { clear. intros l s e s' H. unfold write_all_m in H. destruct (em_writer s); [|discriminate H]. destruct (write_all l w) as [[x|] w']; [|discriminate H]. injection H as <- _. reflexivity. }
  intros H. assert (F : errs (fun e => kind e = KIo) flush); [|exact (F _ _ _ H)].
  unfold flush. clear H. repeat first [apply K_bind; [|intros ?] | apply K_ret | apply K_get | apply K_modify | apply K_panics | apply K_when | exact (W _)
    | match goal with |- errs _ (if ?b then _ else _) => destruct b | |- errs _ (match ?b with _ => _ end) => destruct b end | cbv beta zeta].
Qed.
(** Making settings returns no error. *)
Theorem C56_settings (s s' : est) e :
  (forall x, em_set_encoding x s <> (Err e, s')) /\ (forall b, em_set_canonical b s <> (Err e, s')) /\
  (forall i, em_set_indent i s <> (Err e, s')) /\ (forall w, em_set_width w s <> (Err e, s')) /\
  (forall b, em_set_unicode b s <> (Err e, s')) /\ (forall b, em_set_break b s <> (Err e, s')).
Proof. unfold em_set_encoding, em_set_canonical, em_set_indent, em_set_width, em_set_unicode, em_set_break, modify. repeat split; intros x H; try discriminate H. destruct (encoding_eqb _ _); discriminate H. Qed.

(** ** What an error tells of itself *)
Theorem C56_accessors e :
  (problem_mark e <> None <-> kind e = KScanner \/ kind e = KParser \/ kind e = KComposer) /\
  (context_mark e <> None <-> context e <> None) /\
  (context e <> None -> problem_mark e <> None) /\
  (forall x, try_into_io e = inl x <-> e = EIo x) /\ (forall x, try_into_io e = inr x -> x = e /\ kind e <> KIo) /\
  (forall x, error_source e = Some x <-> e = EIo x).
Proof.
  destruct e as [? ? ?|c ? ? ?|c ? ? ?|c ? ? ?|?|?]; cbn; try (destruct (String.eqb c "")); repeat split; intros; try discriminate; try tauto; try congruence;
    repeat match goal with H : _ \/ _ |- _ => destruct H end; try discriminate; try congruence.
Qed.

Definition digit (c : char) : Prop := 48 <= c < 58.
Lemma dec_digits fuel : forall n acc, Forall digit acc -> Forall digit (dec_go fuel n acc).
Proof.
  induction fuel as [|f IH]; intros n acc H; cbn [dec_go]; [exact H|]. destruct (N.ltb_spec n 10).
  - constructor; [unfold digit; lia|exact H].
  - apply IH. constructor; [|exact H]. unfold digit. pose proof (N.mod_lt n 10). lia.
Qed.
Lemma digits_end (a : str) : forall (b : str) x y (r q : str), Forall digit a -> Forall digit b -> ~ digit x -> ~ digit y ->
  a ++ x :: r = b ++ y :: q -> a = b /\ x :: r = y :: q.
Proof.
  induction a as [|c a IH]; intros [|d b] x y r q Ha Hb Hx Hy H; cbn in H.
  - auto.
  - injection H as -> H. inversion Hb; contradiction.
  - injection H as <- H. inversion Ha; contradiction.
  - injection H as <- H. inversion Ha; inversion Hb; subst. destruct (IH b x y r q) as [-> Hr]; auto.
Qed.
Lemma decimal_end n m x y (r q : str) : ~ digit x -> ~ digit y -> decimal n ++ x :: r = decimal m ++ y :: q -> n = m /\ x :: r = y :: q.
Proof.
  intros Hx Hy H. apply digits_end in H; try assumption; try (apply dec_digits; constructor). destruct H as [H ?]. split; [|assumption].
  apply (f_equal (undec 0)) in H. rewrite !undec_decimal in H. exact H.
Qed.

Lemma show_mark_end m m' (r q : str) : show_mark m ++ lit ": " ++ r = show_mark m' ++ lit ": " ++ q -> m_line m = m_line m' /\ m_col m = m_col m'.
Proof.
  unfold show_mark. rewrite <- !app_assoc. intros H. apply app_inv_head in H. cbn in H.
  apply decimal_end in H; [|unfold digit; lia|unfold digit; lia]. destruct H as [H1 H]. injection H as H.
  apply decimal_end in H; [|unfold digit; lia|unfold digit; lia]. destruct H as [H2 _]. lia.
Qed.
(** The text of an error tells its kind and, if it is about a position, the line and the column. *)
Theorem C56_display f e e' : display f e = display f e' ->
  kind e = kind e' /\
  match problem_mark e, problem_mark e' with
  | Some m, Some m' => m_line m = m_line m' /\ m_col m = m_col m'
  | None, None => True
  | _, _ => False
  end.
Proof.
  intros H. assert (K : kind e = kind e').
  { unfold display in H. destruct (kind e), (kind e'); try reflexivity; cbn in H; discriminate H. }
  split; [exact K|]. unfold display in H. rewrite K in H. apply app_inv_head in H. apply app_inv_head in H.
  assert (X : forall c cm p pm, exists r, show_problem c cm p pm = show_mark pm ++ lit ": " ++ r).
  { intros. unfold show_problem. destruct (String.eqb c ""); eexists; reflexivity. }
  destruct e as [p off v|c cm p pm|c cm p pm|c cm p pm|p|x], e' as [p' off' v'|c' cm' p' pm'|c' cm' p' pm'|c' cm' p' pm'|p'|x']; try discriminate K; cbn [problem_mark]; try exact Logic.I;
    destruct (X c cm p pm) as [r Hr]; destruct (X c' cm' p' pm') as [q Hq]; rewrite Hr, Hq in H; exact (show_mark_end _ _ _ _ H).
Qed.
(** C39: positions are displayed counted from 1: the text of an error about line l, column c (counted
    from 0) starts with the kind, then "line l+1 column c+1" in decimal. *)
Definition numeral (n : N) (l : str) : Prop := l <> [] /\ Forall digit l /\ fold_left (fun v c => 10 * v + (c - 48)) l 0 = n.
Lemma undec_fold l : forall v, undec v l = fold_left (fun v c => 10 * v + (c - 48)) l v.
Proof. induction l as [|c l IH]; intros v; [reflexivity|]. cbn [undec fold_left]. rewrite IH. f_equal. lia. Qed.
Lemma dec_go_nonempty fuel : forall n acc, acc <> [] -> dec_go fuel n acc <> [].
Proof. induction fuel as [|f IH]; intros n acc H; cbn [dec_go]; [exact H|]. destruct (n <? 10); [discriminate|apply IH; discriminate]. Qed.
Lemma decimal_numeral n : numeral n (decimal n).
Proof.
  split; [|split].
  - unfold decimal. cbn [dec_go]. destruct (n <? 10); [discriminate|]. apply dec_go_nonempty. discriminate.
  - apply dec_digits. constructor.
  - rewrite <- undec_fold. apply undec_decimal.
Qed.
Theorem C39_displayed_one_based f e m : problem_mark e = Some m ->
  exists line column text, numeral (m_line m + 1) line /\ numeral (m_col m + 1) column /\
    display f e = show_kind (kind e) ++ lit " error: line " ++ line ++ lit " column " ++ column ++ lit ": " ++ text.
Proof.
  intros H. exists (decimal (m_line m + 1)), (decimal (m_col m + 1)).
  assert (X : forall c cm p pm, exists r, show_problem c cm p pm = lit "line " ++ decimal (m_line pm + 1) ++ lit " column " ++ decimal (m_col pm + 1) ++ lit ": " ++ r).
  { intros. unfold show_problem, show_mark. destruct (String.eqb c ""); eexists; rewrite <- !app_assoc; reflexivity. }
  destruct e as [p off v|c cm p pm|c cm p pm|c cm p pm|p|x]; try discriminate H; injection H as ->; destruct (X c cm p m) as [r Hr];
    exists r; (split; [apply decimal_numeral|]); (split; [apply decimal_numeral|]); unfold display; rewrite Hr; reflexivity.
Qed.
(** For an error of the emitter, of reading, or with the position: the text names the problem. *)
Theorem C56_display_problem f e : kind e <> KIo -> exists a b, display f e = a ++ lit (problem e) ++ b.
Proof.
  intros K. unfold display. destruct e as [p off v|c cm p pm|c cm p pm|c cm p pm|p|x]; cbn [problem kind]; try (exfalso; apply K; reflexivity);
    unfold show_problem; try (destruct (String.eqb c "")); rewrite ?app_assoc.
  all: match goal with
  | |- exists a b, ?x = a ++ lit ?p ++ b => idtac end.
  - exists (show_kind KReader ++ lit " error: "). eexists. rewrite <- !app_assoc. reflexivity.
  - exists ((show_kind KScanner ++ lit " error: ") ++ show_mark pm ++ lit ": "), []. rewrite <- ?app_assoc, app_nil_r. reflexivity.
  - exists ((show_kind KScanner ++ lit " error: ") ++ show_mark pm ++ lit ": "). eexists. rewrite <- ?app_assoc. reflexivity.
  - exists ((show_kind KParser ++ lit " error: ") ++ show_mark pm ++ lit ": "), []. rewrite <- ?app_assoc, app_nil_r. reflexivity.
  - exists ((show_kind KParser ++ lit " error: ") ++ show_mark pm ++ lit ": "). eexists. rewrite <- ?app_assoc. reflexivity.
  - exists ((show_kind KComposer ++ lit " error: ") ++ show_mark pm ++ lit ": "), []. rewrite <- ?app_assoc, app_nil_r. reflexivity.
  - exists ((show_kind KComposer ++ lit " error: ") ++ show_mark pm ++ lit ": "). eexists. rewrite <- ?app_assoc. reflexivity.
  - exists (show_kind KEmitter ++ lit " error: "), []. rewrite app_nil_r, <- app_assoc. reflexivity.
Qed.
Print Assumptions C56_scanner.
Print Assumptions C56_parser.
Print Assumptions C56_load.
Print Assumptions C56_emitter.
Print Assumptions C56_flush.
Print Assumptions C56_settings.
Print Assumptions C56_accessors.
Print Assumptions C56_display.
Print Assumptions C39_displayed_one_based.
Print Assumptions C56_display_problem.

(** ** Every kind arises *)
Definition outcomes {S A} (m : M S A) (n : nat) (s : S) : list error_kind :=
  flat_map (fun r => match r with Err e => [kind e] | _ => [] end) (fst (calls m n s)).
Example errors_of_parsing :
  outcomes parse 3 (parser_on false (Mk_source [0; 1] [])) = [KReader; KReader; KReader] /\
  outcomes parse 3 (parser_on false (Mk_source (lit "a") [SFail 3; SData (lit "b")])) = [KIo] /\
  outcomes parse 3 (parser_on false (Mk_source (lit "%A\") [])) = [KScanner] /\
  outcomes parse 5 (parser_on false (Mk_source (lit "{a: ]") [])) = [KParser].
Proof. vm_compute. repeat split; reflexivity. Qed.
Example error_of_loading :
  match fst (load (parser_on false (Mk_source (lit "- *a") []))) with
  | Err e => kind e = KComposer /\ display (fun _ => []) e = lit "Composer error: line 1 column 3: found undefined alias"
  | _ => False
  end.
Proof. vm_compute. split; reflexivity. Qed.
Example errors_of_emitting :
  outcomes (emit (event_new EvStreamEnd)) 1 (emitter_on []) = [KEmitter] /\
  outcomes (emit_all [event_new (EvStreamStart Utf16Le)] ;; flush) 1 (emitter_on [WFail 0 4]) = [KIo].
Proof. vm_compute. repeat split; reflexivity. Qed.
