(** RecodeParse.v -- the judgement of Recode.v for the parser and the loader. *)
From Coq Require Import Lia ZifyBool ZifyNat ZifyN Bool.
From Verif Require Import Base Utf Chars State Reader Scanner Parser EState Emitter Document Wp ReadFacts Recode RecodeScan.
Open Scope N_scope.

(** ** A state that contains a scanner *)
Section gen.
Context {T : Type}.
Variable rp : T -> rpart.
Variable put : rpart -> T -> T.
Definition GSim (E : encoding) {A} (m : M T A) : Prop :=
  forall tx s x, J E tx (rp s) -> J E tx x ->
  let (r1, s1) := m s in let (r2, t1) := m (put x s) in
  r1 = Fuel \/ r2 = Fuel \/
  (r2 = r1 /\ exists tx' x', J E tx' (rp s1) /\ J E tx' x' /\ t1 = put x' s1).
Variable E : encoding.
Notation G := (GSim E).
Lemma G_pure {A} (m : M T A) : (forall s x, m (put x s) = (fst (m s), put x (snd (m s))) /\ rp (snd (m s)) = rp s) -> G m.
Proof.
  intros H tx s x J1 J2. destruct (H s x) as [E1 E2]. rewrite E1. destruct (m s) as [r1 s1]. cbn [fst snd] in *. right. right. split; [reflexivity|].
  exists tx, x. rewrite E2. auto.
Qed.
Lemma G_ret {A} (a : A) : G (ret a).
Proof. apply G_pure. intros. split; reflexivity. Qed.
Lemma G_fail {A} e : G (@fail T A e). Proof. apply G_pure. intros. split; reflexivity. Qed.
Lemma G_panics {A} e : G (@panics T A e). Proof. apply G_pure. intros. split; reflexivity. Qed.
Lemma G_bind {A B} (m : M T A) (f : A -> M T B) : G m -> (forall a, G (f a)) -> G (bind m f).
Proof.
  intros H1 H2 tx s x J1 J2. specialize (H1 tx s x J1 J2). unfold bind.
  destruct (m s) as [r1 s1], (m (put x s)) as [r2 t1]. destruct H1 as [H|[H|(H & tx' & x' & A1 & A2 & A3)]].
  - subst r1. destruct r2 as [a|e|p|]; [destruct (f a t1)|..]; auto.
  - subst r2. destruct r1 as [a|e|p|]; [destruct (f a s1)|..]; auto.
  - subst r2 t1. destruct r1 as [a|e|p|]; [exact (H2 a tx' s1 x' A1 A2)|..]; eauto 8.
Qed.
Lemma G_get {B} (f : T -> M T B) : (forall s x, f (put x s) = f s) -> (forall s, G (f s)) -> G (bind get f).
Proof. intros H1 H2 tx s x J1 J2. unfold bind, get. rewrite (H1 s x). exact (H2 s tx s x J1 J2). Qed.
Lemma G_modify f : (forall s x, f (put x s) = put x (f s)) -> (forall s, rp (f s) = rp s) -> G (modify f).
Proof. intros H1 H2. apply G_pure. intros s x. unfold modify. cbn [fst snd]. rewrite H1, H2. auto. Qed.
Lemma G_loopM {A B} (body : A -> M T (A + B)) : (forall a, G (body a)) ->
  forall n1 n2 a tx s x, J E tx (rp s) -> J E tx x ->
  let (r1, s1) := loopM n1 body a s in let (r2, t1) := loopM n2 body a (put x s) in
  r1 = Fuel \/ r2 = Fuel \/ (r2 = r1 /\ exists tx' x', J E tx' (rp s1) /\ J E tx' x' /\ t1 = put x' s1).
Proof.
  intros H. induction n1 as [|n1 IH]; intros n2 a tx s x J1 J2.
  - cbn [loopM]. destruct (loopM n2 body a (put x s)). auto.
  - destruct n2 as [|n2]; [cbn [loopM]; destruct (bind _ _ s); auto|]. cbn [loopM]. unfold bind. specialize (H a tx s x J1 J2).
    destruct (body a s) as [r1 s1], (body a (put x s)) as [r2 t1]. destruct H as [H|[H|(H & tx' & x' & A1 & A2 & A3)]].
    + subst r1. destruct r2 as [[a'|b]|e|p|]; cbn; auto. destruct (loopM n2 body a' t1); auto.
    + subst r2. destruct r1 as [[a'|b]|e|p|]; cbn; auto. destruct (loopM n1 body a' s1); auto.
    + subst r2 t1. destruct r1 as [[a'|b]|e|p|]; [exact (IH n2 a' tx' s1 x' A1 A2)|..]; cbn; eauto 8.
Qed.
Lemma G_loop_at {A B} (body : A -> M T (A + B)) (n : T -> nat) a : (forall a, G (body a)) -> G (fun s => loopM (n s) body a s).
Proof. intros H tx s x J1 J2. exact (G_loopM body H _ _ a tx s x J1 J2). Qed.
End gen.

(** ** The parser *)
Definition prof (p : pst) : rpart := rof (sc p).
Definition pwr (x : rpart) (p : pst) : pst := set_sc (wr x (sc p)) p.
Notation PSim := (GSim prof pwr).
Section parse.
Variable E : encoding.
Lemma P_on_sc {A} (m : M sst A) k : Sim E 0 m k -> PSim E (on_sc m).
Proof.
  intros H tx p x J1 J2. unfold on_sc. specialize (H tx (sc p) x J1 J2 (F_zero _ _ _) (F_zero _ _ _)). change (sc (pwr x p)) with (wr x (sc p)).
  destruct (m (sc p)) as [r1 s1], (m (wr x (sc p))) as [r2 t1]. destruct H as [H|[H|(H & tx' & x' & A1 & A2 & A3 & _)]]; [auto|auto|].
  right. right. split; [exact H|]. exists tx', x'. subst t1. auto.
Qed.
Lemma P_peek : PSim E ppeek. Proof. eapply P_on_sc, S_peek. Qed.
Lemma P_skip : PSim E pskip. Proof. eapply P_on_sc, S_skip_token. Qed.
Lemma P_front d : PSim E (on_sc (set_front d)). Proof. eapply P_on_sc, S_set_front. Qed.
Lemma P_push_state x : PSim E (push_state x). Proof. apply G_modify; reflexivity. Qed.
Lemma P_goto x : PSim E (goto x). Proof. apply G_modify; reflexivity. Qed.
Lemma P_pop_state : PSim E pop_state. Proof. apply G_pure. intros p x. unfold pop_state. change (states (pwr x p)) with (states p). destruct (states p); split; reflexivity. Qed.
Lemma P_push_mark x : PSim E (push_mark x). Proof. apply G_modify; reflexivity. Qed.
Lemma P_pop_mark : PSim E pop_mark. Proof. apply G_pure. intros p x. unfold pop_mark. change (marks (pwr x p)) with (marks p). destruct (marks p); split; reflexivity. Qed.
Lemma P_drop_mark : PSim E drop_mark. Proof. apply G_modify; reflexivity. Qed.
Hint Resolve P_peek P_skip P_front P_push_state P_goto P_pop_state P_push_mark P_pop_mark P_drop_mark : pp.
Ltac p1 :=
  cbv beta zeta;
  lazymatch goal with
  | |- GSim _ _ _ (bind get _) => apply G_get; [reflexivity|intros ?]
  | |- GSim _ _ _ (bind _ _) => apply G_bind; [|intros ?]
  | |- GSim _ _ _ (ret _) => apply G_ret
  | |- GSim _ _ _ (fail _) => apply G_fail
  | |- GSim _ _ _ (panics _) => apply G_panics
  | |- GSim _ _ _ (if ?b then _ else _) => destruct b
  | |- GSim _ _ _ (match ?b with _ => _ end) => destruct b
  | |- GSim _ _ _ (modify _) => apply G_modify; reflexivity
  | |- GSim _ _ _ _ => solve [eauto 2 with pp]
  end.
Ltac pp := repeat p1.
Lemma P_append v a m : PSim E (append_tag_directive v a m). Proof. unfold append_tag_directive. pp. Qed.
Hint Resolve P_append : pp.
Lemma P_directives_loop : PSim E directives_loop.
Proof. unfold directives_loop. apply G_loop_at. intros [vd tds]. pp. Qed.
Hint Resolve P_directives_loop : pp.
Lemma P_process : PSim E process_directives. Proof. unfold process_directives. pp. Qed.
Lemma P_stream_start : PSim E parse_stream_start. Proof. unfold parse_stream_start. pp. Qed.
Lemma P_skip_ends : PSim E skip_document_ends. Proof. unfold skip_document_ends. apply G_loop_at. intros ?. pp. Qed.
Hint Resolve P_process P_stream_start P_skip_ends : pp.
Lemma P_document_start b : PSim E (parse_document_start b). Proof. unfold parse_document_start. pp. Qed.
Lemma P_properties t : PSim E (parse_properties t). Proof. unfold parse_properties. pp. Qed.
Lemma P_resolve a b c : PSim E (resolve_tag a b c). Proof. unfold resolve_tag. pp. Qed.
Hint Resolve P_document_start P_properties P_resolve : pp.
Lemma P_node_content a b c : PSim E (parse_node_content a b c). Proof. unfold parse_node_content. pp. Qed.
Hint Resolve P_node_content : pp.
Lemma P_node a b : PSim E (parse_node a b). Proof. unfold parse_node. pp. Qed.
Hint Resolve P_node : pp.
Lemma P_document_content : PSim E parse_document_content. Proof. unfold parse_document_content. pp. Qed.
Lemma P_document_end : PSim E parse_document_end. Proof. unfold parse_document_end. pp. Qed.
Lemma P_enter b : PSim E (enter_collection b). Proof. unfold enter_collection. pp. Qed.
Lemma P_leave d t : PSim E (leave_collection d t). Proof. unfold leave_collection. pp. Qed.
Lemma P_error a b c : PSim E (collection_error a b c). Proof. unfold collection_error. pp. Qed.
Lemma P_sep a b c d : PSim E (flow_separator a b c d). Proof. unfold flow_separator. pp. Qed.
Hint Resolve P_document_content P_document_end P_enter P_leave P_error P_sep : pp.
Lemma P_machine : PSim E state_machine.
Proof.
  unfold state_machine. p1. p1; try (solve [pp]);
  unfold parse_block_sequence_entry, parse_indentless_sequence_entry, parse_block_mapping_key, parse_block_mapping_value, parse_flow_sequence_entry,
    parse_flow_sequence_entry_mapping_key, parse_flow_sequence_entry_mapping_value, parse_flow_sequence_entry_mapping_end, parse_flow_mapping_key, parse_flow_mapping_value; pp.
Qed.
Hint Resolve P_machine : pp.
Lemma P_parse : PSim E parse. Proof. unfold parse. pp. Qed.
Hint Resolve P_parse : pp.
Lemma P_next : PSim E parser_next. Proof. unfold parser_next. pp. Qed.

(** ** The loader *)
Definition lrof (l : lst) : rpart := prof (l_parser l).
Definition lwr (x : rpart) (l : lst) : lst := Mk_lst (pwr x (l_parser l)) (l_doc l) (l_ctx l).
Notation LSim := (GSim lrof lwr).
Lemma L_on {A} (m : M pst A) : PSim E m -> LSim E (on_parser m).
Proof.
  intros H tx p x J1 J2. unfold on_parser. specialize (H tx (l_parser p) x J1 J2). change (l_parser (lwr x p)) with (pwr x (l_parser p)).
  destruct (m (l_parser p)) as [r1 s1], (m (pwr x (l_parser p))) as [r2 t1]. destruct H as [H|[H|(H & tx' & x' & A1 & A2 & A3)]]; [auto|auto|].
  right. right. split; [exact H|]. exists tx', x'. subst t1. auto.
Qed.
Lemma L_parse : LSim E (on_parser parse). Proof. apply L_on, P_parse. Qed.
Hint Resolve L_parse : pp.
Hint Extern 3 (GSim lrof lwr _ (on_parser (modify _))) => (apply L_on; apply G_modify; reflexivity) : pp.
Lemma L_register i a : LSim E (register_anchor i a). Proof. unfold register_anchor. pp. Qed.
Lemma L_add i : LSim E (load_node_add i). Proof. unfold load_node_add. pp. Qed.
Hint Resolve L_register L_add : pp.
Lemma L_alias a m : LSim E (load_alias a m). Proof. unfold load_alias. pp. Qed.
Lemma L_push n a : LSim E (load_push n a). Proof. unfold load_push. pp. Qed.
Lemma L_ctx i : LSim E (push_ctx i). Proof. apply G_modify; reflexivity. Qed.
Lemma L_end b m : LSim E (load_end b m). Proof. unfold load_end. pp. Qed.
Hint Resolve L_alias L_push L_ctx L_end : pp.
Lemma L_event e : LSim E (load_event e). Proof. unfold load_event. pp. Qed.
Hint Resolve L_event : pp.
Lemma L_nodes : LSim E load_nodes.
Proof. unfold load_nodes. apply G_bind; [|intros ?; pp]. apply (G_loop_at lrof lwr E _ (fun l => load_budget (l_parser l))). intros ?. pp. Qed.
Hint Resolve L_nodes : pp.
Lemma L_document e : LSim E (load_document e). Proof. unfold load_document. pp. Qed.
Lemma P_load_rest : PSim E load_rest.
Proof.
  intros tx p x J1 J2. unfold load_rest. change (stream_end_produced (sc (pwr x p))) with (stream_end_produced (sc p)).
  destruct (stream_end_produced (sc p)). { right. right. split; [reflexivity|]. exists tx, x. auto. }
  pose proof (P_parse tx p x J1 J2) as H. destruct (parse p) as [r1 s1], (parse (pwr x p)) as [r2 t1].
  destruct H as [H|[H|(H & tx' & x' & A1 & A2 & A3)]].
  - subst r1. repeat match goal with |- (let (_, _) := ?X in _) => destruct X end; auto.
  - subst r2. match goal with |- (let (_, _) := ?X in _) => destruct X end; auto.
  - subst r2 t1. destruct r1 as [e|e|q|]; [|right; right; split; [reflexivity|]; exists tx', x'; auto..].
    pose proof (L_document e tx' (Mk_lst s1 (document_new None [] false false) []) x' A1 A2) as H.
    change (lwr x' (Mk_lst s1 (document_new None [] false false) [])) with (Mk_lst (pwr x' s1) (document_new None [] false false) []) in H.
    assert (Y : let (r1, s2) := match load_document e (Mk_lst s1 (document_new None [] false false) []) with
              | (Ok _, l) => finish (Ok (l_doc l), l_parser l)
              | (Err x, l) => finish (Err x, l_parser l)
              | (Panic x, l) => (Panic x, l_parser l)
              | (Fuel, l) => (Fuel, l_parser l) end in
        let (r2, t2) := match load_document e (Mk_lst (pwr x' s1) (document_new None [] false false) []) with
              | (Ok _, l) => finish (Ok (l_doc l), l_parser l)
              | (Err x, l) => finish (Err x, l_parser l)
              | (Panic x, l) => (Panic x, l_parser l)
              | (Fuel, l) => (Fuel, l_parser l) end in
        r1 = Fuel \/ r2 = Fuel \/ (r2 = r1 /\ exists tx' x', J E tx' (prof s2) /\ J E tx' x' /\ t2 = pwr x' s2)).
    { destruct (load_document e (Mk_lst s1 (document_new None [] false false) [])) as [r1 l1],
               (load_document e (Mk_lst (pwr x' s1) (document_new None [] false false) [])) as [r2 l2].
      destruct H as [H|[H|(H & tx2 & x2 & B1 & B2 & B3)]].
      - subst r1. repeat match goal with |- (let (_, _) := ?X in _) => destruct X end; auto.
      - subst r2. destruct r1; right; left; reflexivity.
      - subst r2 l2. destruct r1; (right; right; split; [reflexivity|]; exists tx2, x2; auto). }
    destruct (e_data e); try exact Y. right. right. split; [reflexivity|]. exists tx', x'. auto.
Qed.
Lemma P_load : PSim E load.
Proof.
  intros tx p x J1 J2. unfold load. change (stream_start_produced (sc (pwr x p))) with (r_ssp x). change (stream_start_produced (sc p)) with (r_ssp (prof p)).
  rewrite (proj2 J1), (proj2 J2). exact (P_load_rest tx p x J1 J2).
Qed.
End parse.
