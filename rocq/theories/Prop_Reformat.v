(** Prop_Reformat.v -- C49: copying a YAML text in block and flow layout keeps its events.

    The counterpart of C46 without [canonical]: the events of a parser are given to an emitter with
    any other settings, and what is written is parsed again. *)
From Coq Require Import Lia ZifyBool ZifyNat ZifyN Bool.
From Verif Require Import Base Utf Chars State Reader Scanner Parser Wp EState Emitter Document Api Spec_Tokens Spec_Scanner Spec_Reader Spec_Parser Prop_Scanner Prop_Reader Prop_Parser Utf8Facts ReaderFacts ReadFacts
  Spec_Events EventFacts IoFacts Spec_Emitter Spec_EmitNames EmitText EmitIo EmitSession EmitGrammar Prop_Emitter Prop_EmitGrammar Spec_Canonical Spec_Layout Prop_Copy Prop_Layout.
From Verif Require Spec_Lexical Prop_Lexical Prop_Canonical.
Open Scope N_scope.

Theorem C49_copy_in_any_layout : forall dbg e i tx n os p e0 l st plan,
  input_text e i tx -> calls parser_next n (parser_start dbg e i) = (os, p) -> Forall succeeded os -> existsb is_stream_end_event (events_of os) = true ->
  events_of os = e0 :: emitted l -> (2 < length (events_of os))%nat -> N.of_nat (length (events_of os)) < 214748364 ->
  Forall ascii_names (map e_data (events_of os)) -> abbreviable (map e_data (events_of os)) ->
  Forall foldable (map e_data (events_of os)) -> visible_root (map e_data (emitted l)) ->
  st_canonical st = false -> st_encoding st = EncAny \/ st_encoding st = Utf8 ->
  exists r s', run_calls (CEmit e0 :: l) (new_emitter st plan) = (r, s') /\
  (r = Ok tt \/ exists k, r = Err (EIo (OtherIo k)) /\ In k (write_failures (new_emitter st plan))) /\
  (r = Ok tt -> forall dbg' e' i', Prop_Canonical.delivers i' (output s') -> e' = Utf8 \/ e' = EncAny /\ first_read_ok i' /\ hd 0 (output s') <> 239 ->
    exists es, Forall2 told (EvStreamStart Utf8 :: map e_data (emitted l)) (map e_data es) /\
    forall k, fst (calls parser_next (length es + k) (parser_start dbg' e' i')) = map (fun e => Ok (Some e)) es ++ repeat (Ok None) k).
Proof.
  intros dbg e i tx n os p e0 l st plan Hi H Hr Hend E Hlen Hmax Ha Hab Hnb Hvr Hcan Henc.
  destruct (parsed_head _ _ _ _ _ _ _ _ H Hr E) as (ev & E0 & _). rewrite (run_first _ _ _ _ _ E0).
  pose proof (parsed_valid false _ _ _ _ _ _ H Hr) as V. pose proof (parsed_values _ _ _ _ _ _ _ Hi H Hr) as U.
  destruct (C10_events_follow_the_grammar _ _ _ _ _ _ H Hr) as [_ St]. specialize (St Hend).
  rewrite E in V, U, St, Hlen, Hmax, Ha, Hab, Hnb. cbn [map] in U, St, Ha, Hab, Hnb. rewrite E0 in U, St, Ha, Hab.
  pose proof (Forall_inv U) as Ue. cbv beta iota in Ue.
  assert (Hu : effective_encoding (st_encoding st) ev = Utf8) by (destruct Henc as [-> | ->]; [|reflexivity]; destruct Ue as [-> | ->]; reflexivity).
  apply C47_layout_round_trip.
  - exact Hcan.
  - exact Hu.
  - exact St.
  - intros Z. apply (f_equal (@length _)) in Z. rewrite map_length in Z. cbn [length] in Z, Hlen. lia.
  - exact (Forall_inv_tail V).
  - apply Forall_inv_tail in U. apply Forall_inv_tail in Ha. clear - U Ha. induction (emitted l) as [|x es IH]; [constructor|]. cbn [map] in U, Ha.
    constructor; [|apply IH; [exact (Forall_inv_tail Ha)|exact (Forall_inv_tail U)]]. apply Forall_inv in U. apply Forall_inv in Ha. unfold plain_data. cbv beta in *.
    destruct (e_data x) as [| | | | |a [t|] v pi qi sy|a [t|]| |a [t|]|]; try exact Logic.I; try exact Ha; auto.
  - apply (abbreviable_tail _ _ Hab).
  - exact (proj1 (Forall_map _ _ _) (Forall_inv_tail Hnb)).
  - apply short_shallow. rewrite map_length. cbn [length] in Hmax. lia.
  - exact Hvr.
Qed.
Print Assumptions C49_copy_in_any_layout.

(** ** A case: comments, directives, block collections with flow collections in them, scalars over several lines, a literal one. *)
Definition rf_text : str :=
  lit "%TAG !e! tag:e,2000:   # a prefix" ++ [10] ++ lit "---  # start" ++ [13; 10] ++ lit "a : &x !e!t [1, 'it''s'," ++ [10; 10] ++ lit "   ""\u00e9\" ++ [10; 32] ++ lit " b""]" ++ [10] ++
  lit "? - p" ++ [10] ++ lit "    q" ++ [10] ++ lit "  -   r: *x" ++ [10] ++ lit ": # nothing" ++ [10] ++ lit "..." ++ [10] ++ lit "---" ++ [10] ++ lit "- {k, ? [], 'z':y}" ++ [10] ++ lit "- |+ # text" ++ [10] ++ lit "   one" ++ [13; 10; 10] ++ lit "     two" ++ [10; 10] ++ lit "-" ++ [10].
Definition rf_source : source := Mk_source [] (map (fun b => SData [b]) (encode_utf8 rf_text)).
Example rf_input : input_text EncAny rf_source rf_text.
Proof.
  split; [repeat constructor; discriminate|]. split; [let t := eval vm_compute in rf_text in change rf_text with t; repeat apply Forall_cons; try apply Forall_nil; unfold yaml_char; lia|].
  split; [vm_compute; reflexivity|]. exists (encode_utf8 rf_text). split; [apply utf8_text_encode; split; [repeat constructor|reflexivity]|].
  split; [right; vm_compute; exact Logic.I|]. right. split; [vm_compute; reflexivity|vm_compute; discriminate].
Qed.
Definition rf_run := calls parser_next 50 (parser_start true EncAny rf_source).
Notation rf_events := (events_of (fst rf_run)).
Definition rf_calls : list call := flat_map (fun e => [CFlush; CEmit e]) (tl rf_events).
Definition rf_st : settings := Mk_settings EncAny false 4 10 true BrLn.
Definition rf_output : list byte := output (snd (run_calls (match rf_events with e0 :: _ => CEmit e0 :: rf_calls | [] => [] end) (new_emitter rf_st []))).
Example rf_parsed : Forall succeeded (fst rf_run) /\ existsb is_stream_end_event rf_events = true /\ length rf_events = 35%nat /\ abbreviable (map e_data rf_events) /\ Forall ascii_names (map e_data rf_events) /\
  Forall foldable (map e_data rf_events) /\ visible_root (map e_data (emitted rf_calls)) /\ exists e0, rf_events = e0 :: emitted rf_calls.
Proof.
  split; [unfold rf_run; match goal with |- Forall _ ?x => let t := eval vm_compute in x in change x with t end; repeat apply Forall_cons; try apply Forall_nil; exact Logic.I|].
  split; [vm_compute; reflexivity|]. split; [vm_compute; reflexivity|]. split; [apply Prop_Canonical.abbrevs_abbreviable; vm_compute; reflexivity|]. split; [|split; [|split]].
  - match goal with |- Forall _ ?x => let t := eval vm_compute in x in change x with t end. repeat apply Forall_cons; try apply Forall_nil; try exact Logic.I; repeat split; repeat apply Forall_cons; try apply Forall_nil; reflexivity.
  - match goal with |- Forall _ ?x => let t := eval vm_compute in x in change x with t end. repeat apply Forall_cons; try apply Forall_nil; try exact Logic.I; discriminate.
  - vm_compute. exact Logic.I.
  - eexists. vm_compute. reflexivity.
Qed.
Example rf_copied : rf_output = encode_utf8 (
    lit "%TAG !e! tag:e,2000:" ++ [10] ++
    lit "---" ++ [10] ++
    lit "a: &x !e!t [" ++ [10] ++
    lit "    1, 'it''s'," ++ [10] ++
    lit "    """ ++ [233] ++ lit "b""]" ++ [10] ++
    lit "?   - p q" ++ [10] ++
    lit "    -   r: *x" ++ [10] ++
    lit ":" ++ [10] ++
    lit "..." ++ [10] ++
    lit "---" ++ [10] ++
    lit "- {k: ! ''," ++ [10] ++
    lit "    []: ! ''," ++ [10] ++
    lit "    'z': y}" ++ [10] ++
    lit "- |+" ++ [10] ++
    lit "    one" ++ [10; 10] ++
    lit "      two" ++ [10; 10] ++
    lit "-" ++ [10] ++
    lit "..." ++ [10]).
Proof. vm_compute. reflexivity. Qed.
Lemma rf_calls_eq : calls parser_next 50 (parser_start true EncAny rf_source) = (fst rf_run, snd rf_run).
Proof. unfold rf_run. generalize (calls parser_next 50 (parser_start true EncAny rf_source)). intros [a b]. reflexivity. Qed.
Example rf_theorem : exists e0 s', rf_events = e0 :: emitted rf_calls /\ run_calls (CEmit e0 :: rf_calls) (new_emitter rf_st []) = (Ok tt, s') /\
  forall dbg' e' i', Prop_Canonical.delivers i' (output s') -> e' = Utf8 \/ e' = EncAny /\ first_read_ok i' /\ hd 0 (output s') <> 239 ->
    exists es, Forall2 told (EvStreamStart Utf8 :: map e_data (emitted rf_calls)) (map e_data es) /\
    forall k, fst (calls parser_next (length es + k) (parser_start dbg' e' i')) = map (fun e => Ok (Some e)) es ++ repeat (Ok None) k.
Proof.
  destruct rf_parsed as (P1 & P2 & P3 & P4 & P5 & P6 & P7 & e0 & P8). exists e0.
  pose proof (C49_copy_in_any_layout _ _ _ _ _ _ _ e0 rf_calls rf_st [] rf_input rf_calls_eq P1 P2 P8) as T.
  rewrite P3 in T.
  destruct T as (r & s' & R & F & K); [repeat constructor|reflexivity|exact P5|exact P4|exact P6|exact P7|reflexivity|left; reflexivity|].
  destruct F as [->|(k & _ & F)]; [|vm_compute in F; destruct F]. exists s'. split; [exact P8|]. split; [exact R|]. exact (K eq_refl).
Qed.
