(** Prop_Tools.v -- C52, C53: the two programs of the crate.

    One prints the events of a YAML text, one on a line; the other reads such lines and emits the
    events (C52: which lines are read as the events they were printed for; C53: the text written from
    the lines is read back as the same nodes). *)
From Coq Require Import Lia ZifyBool ZifyNat ZifyN Bool.
From Verif Require Import Base Utf Chars State Reader Scanner Parser Wp EState Emitter Document Api Spec_Tokens Spec_Scanner Spec_Reader Spec_Parser Prop_Scanner Prop_Reader Prop_Parser Utf8Facts ReaderFacts ReadFacts
  Spec_Events EventFacts IoFacts Spec_Emitter Spec_EmitNames EmitText EmitIo EmitSession EmitGrammar Prop_Emitter Prop_EmitGrammar Spec_Canonical Spec_Layout Prop_Copy Prop_Layout Spec_Notation Tools NotationFacts NotationLine ToolRun.
From Verif Require Spec_Lexical Prop_Lexical Prop_Canonical.
Open Scope N_scope.

Lemma parsed_printable dbg e i n os p : calls parser_next n (parser_start dbg e i) = (os, p) -> Forall succeeded os ->
  Forall (fun d => all valid_name (anchor_in d) /\ print_event d <> None) (map e_data (events_of os)).
Proof.
  intros H Hr. destruct (C15_events_explained_by_tokens _ _ _ _ _ _ H Hr) as (tss & G & E & _). apply gives_wf in G.
  apply (explained_all _ _ _ _ _ E G). intros ds ts d Hd Ex W. destruct (explains_names false _ _ _ Ex W) as [A _]. split; [exact A|].
  rewrite print_some. destruct d as [| | | | |a t v pi qi s| | | |]; try exact Logic.I. destruct (ex_scalar _ _ _ Ex) as [(X & _)|(_ & _ & X & _)]; [|rewrite X; exact Logic.I].
  destruct (in_scalars ts v s) as (t' & Ht & Et); [rewrite X; left; reflexivity|]. pose proof (wf_in _ _ W Ht) as Y. rewrite Et in Y. cbn [token_wf] in Y. destruct s; try exact Logic.I. congruence.
Qed.
Lemma calls_len {A} (m : M pst A) n : forall p l q, calls m n p = (l, q) -> length l = n.
Proof.
  induction n as [|n IH]; intros p l q E; cbn [calls] in E; [injection E as <- _; reflexivity|].
  destruct (m p) as [x p1]. destruct (calls m n p1) as [l1 q1] eqn:E1. injection E as <- _. cbn [length]. f_equal. exact (IH _ _ _ E1).
Qed.
Lemma read_all ds ls : printed ds ls -> Forall (fun d => all valid_name (anchor_in d) /\ print_event d <> None) ds ->
  (map read_event (input_lines [] (ended ls)) = map REvent (map noted ds) <-> Forall readable ds /\ Forall on_one_line ds).
Proof.
  intros P F. assert (Hl : length ls = length ds) by (unfold printed in P; apply (f_equal (@length _)) in P; rewrite !map_length in P; congruence).
  assert (Q : Forall (fun l => ~ In 10 l) ls <-> Forall on_one_line ds).
  { clear Hl. unfold printed in P. revert ls P. induction F as [|d ds [F1 F2] F IH]; intros [|l ls] P; try discriminate P; [split; constructor|]. cbn [map] in P. injection P as P1 P2. specialize (IH ls P2).
    pose proof (line_ends d l F1 P1) as LE. split; intros K; constructor; try (apply LE; exact (Forall_inv K)); apply IH; exact (Forall_inv_tail K). }
  assert (R : map read_event ls = map REvent (map noted ds) <-> Forall readable ds).
  { clear Hl Q. unfold printed in P. revert ls P. induction F as [|d ds [F1 F2] F IH]; intros [|l ls] P; try discriminate P; [split; [constructor|reflexivity]|]. cbn [map] in P. injection P as P1 P2. specialize (IH ls P2).
    pose proof (line_read d l F1 P1) as LR. cbn [map]. split.
    - intros K. injection K as K1 K2. constructor; [apply LR; exact K1|apply IH; exact K2].
    - intros K. f_equal; [apply LR; exact (Forall_inv K)|apply IH; exact (Forall_inv_tail K)]. }
  rewrite <- R, <- Q. split.
  - intros K. assert (L : Forall (fun l => ~ In 10 l) ls). { apply few_lines. apply (f_equal (@length _)) in K. rewrite !map_length in K. congruence. }
    split; [|exact L]. rewrite (ended_lines ls L) in K. exact K.
  - intros [K L]. rewrite (ended_lines ls L). exact K.
Qed.

(** The parser program prints the events the parser returns, each on a line, up to STREAM-END or the
    first error; it is never aborted.  Read by the emitter program, the lines give the events (as far
    as they are printed) if and only if no value or tag looks like an anchor or a tag. *)
Theorem C52_printed_events : forall dbg e i n os p,
  calls parser_next n (parser_start dbg e i) = (os, p) -> Forall succeeded os ->
  exists ls, map print_event (map e_data (events_of os)) = map Some ls /\
  let out := flat_map (fun l => l ++ [10]) ls in
  (existsb is_stream_end_event (events_of os) = true -> forall m, parser_tool (n + m) (parser_start dbg e i) = (out, PDone)) /\
  (existsb is_stream_end_event (events_of os) = false -> forall x p', parse p = (Err x, p') -> parser_tool (S n) (parser_start dbg e i) = (out, PParseError x)) /\
  (map read_event (input_lines [] out) = map REvent (map noted (map e_data (events_of os))) <->
   Forall readable (map e_data (events_of os)) /\ Forall on_one_line (map e_data (events_of os))).
Proof.
  intros dbg e i n os p H Hr. pose proof (parsed_printable _ _ _ _ _ _ H Hr) as F.
  assert (G : grun GStart (map e_data (events_of os)) <> None).
  { destruct (C10_events_follow_the_grammar _ _ _ _ _ _ H Hr) as [(rest & St) _]. apply stream_grun in St. rewrite grun_app in St. destruct (grun GStart _); [discriminate|congruence]. }
  destruct (tool_prints n (parser_start dbg e i) GStart os p H Hr) as (ls & P & T1 & T2); [discriminate|exact G|eapply Forall_impl; [|exact F]; intros d [_ K]; exact K|].
  exists ls. split; [exact P|]. cbv zeta. fold (ended ls). split; [exact T1|]. split; [|exact (read_all _ _ P F)].
  intros He x p' Hp. 
  assert (Hl : length (events_of os) = n).
  { assert (D : In (Ok None) os \/ length (events_of os) = length os).
    { clear -Hr. induction Hr as [|o os Ho Hr IH]; [right; reflexivity|]. destruct o as [[ev|]| | |]; try destruct Ho; [|left; left; reflexivity]. destruct IH as [IH|IH]; [left; right; exact IH|right; cbn; f_equal; exact IH]. }
    destruct D as [D|D]; [|rewrite D; exact (calls_len parser_next n _ _ _ H)].
    destruct (C10_no_end_before_stream_end _ _ _ _ _ _ H Hr D) as (ev & docs & _ & X). exfalso. clear -He X. assert (I : In EvStreamEnd (map e_data (events_of os))) by (rewrite X; right; apply in_app_iff; right; left; reflexivity).
    apply in_map_iff in I. destruct I as (x & Ex & Hx). assert (existsb is_stream_end_event (events_of os) = true); [|congruence]. apply existsb_exists. exists x. split; [exact Hx|]. unfold is_stream_end_event. rewrite Ex. reflexivity. }
  specialize (T2 Hl He 1%nat). rewrite Nat.add_1_r in T2. rewrite T2. cbn [parser_tool]. rewrite Hp. rewrite app_nil_r. reflexivity.
Qed.
Print Assumptions C52_printed_events.

(** In the line of a value the control characters that have an escape are never raw. *)
Theorem C52_values_escaped : forall v pi qi s l c, print_event (EvScalar None None v pi qi s) = Some l -> In c l -> ~ In c [0; 8; 9; 10; 13].
Proof.
  intros v pi qi s l c H Hc. cbn [print_event] in H. destruct (style_sigil s) as [x|] eqn:Es; [|discriminate]. injection H as <-.
  repeat (destruct Hc as [<-|Hc]; [destruct s; try discriminate Es; injection Es as <-; cbn; intuition discriminate|]). apply in_flat_map in Hc. destruct Hc as (y & _ & Hy). revert Hy. unfold escape_char.
  repeat match goal with |- context [if ?a =? ?b then _ else _] => destruct (N.eqb_spec a b) end; cbn; intuition congruence.
Qed.
Print Assumptions C52_values_escaped.

(** ** The two programs, one after the other *)
Definition tool_settings : settings := Mk_settings EncAny false 2 0 false BrAny.
Lemma tool_start plan : emit (event_new (EvStreamStart Utf8)) (tool_emitter plan) = emit (event_new (EvStreamStart Utf8)) (new_emitter tool_settings plan).
Proof. vm_compute. reflexivity. Qed.
Lemma same_failures plan : write_failures (tool_emitter plan) = write_failures (new_emitter tool_settings plan).
Proof. vm_compute. reflexivity. Qed.
Lemma same_start e l s1 s2 : emit e s1 = emit e s2 -> run_calls (CEmit e :: l) s1 = run_calls (CEmit e :: l) s2.
Proof. intros E. cbn [run_calls run_call]. unfold bind. rewrite E. reflexivity. Qed.
Lemma start_run plan l : run_calls (CEmit (event_new (EvStreamStart Utf8)) :: l) (tool_emitter plan) = session Utf8 l (new_emitter tool_settings plan).
Proof. exact (same_start _ l _ _ (tool_start plan)). Qed.
Lemma emit_lines_run : forall ds ls s, map read_event ls = map REvent ds ->
  emit_lines ls s = (let (r, s') := run_calls (map (fun d => CEmit (event_new d)) ds) s in (match r with Ok _ => EDone | x => EEmit x end, s')).
Proof.
  induction ds as [|d ds IH]; intros [|l ls] s H; try discriminate H; [reflexivity|]. cbn [map] in H. injection H as H1 H2. cbn [emit_lines map run_calls run_call]. rewrite H1. unfold bind.
  destruct (emit (event_new d) s) as [[[]|x|x|] s'] eqn:E; try reflexivity. apply (IH ls s' H2).
Qed.

Lemma noted_told d d' : told (noted d) d' -> same_note d d'.
Proof.
  intros T. destruct d as [e| |vd tds i|i|a|a t v pi qi s|a t i s| |a t i s|]; cbn [noted] in T; inversion T; subst; try constructor.
  - destruct t as [t|]; cbn [kept_tag orb] in *.
    + match goal with H : _ \/ _ |- _ => destruct H as [->|(K & _)]; [constructor|discriminate K] end.
    + match goal with H : _ \/ _ |- _ => destruct H as [->|(_ & _ & K & _)]; [constructor|discriminate K] end.
Qed.
Lemma noted_valid d : valid_event true d -> valid_event false (noted d).
Proof.
  intros [[A B] _]. split; [split|split]; destruct d as [| | | | |a [t|] v pi qi sy|a [t|]| |a [t|]|]; cbn in *; try exact Logic.I; try exact A; try exact B; auto.
  repeat constructor.
Qed.
Definition strip (g : gstate) : gstate := match g with GDoc _ fs => GDoc [] fs | g => g end.
Lemma noted_gstep g d : gstep (strip g) (noted d) = option_map strip (gstep g d).
Proof.
  destruct g as [| |tds fs|]; destruct d; try reflexivity; cbn [strip noted gstep]; try (destruct (after fs); reflexivity); destruct fs as [|[] fs]; try reflexivity; try (destruct fs; reflexivity); try (destruct (after _); reflexivity).
Qed.
Lemma noted_grun l : forall g, grun (strip g) (map noted l) = option_map strip (grun g l).
Proof. induction l as [|d l IH]; intros g; [reflexivity|]. cbn [map grun]. rewrite noted_gstep. destruct (gstep g d); [apply IH|reflexivity]. Qed.

Theorem C53_tools_round_trip : forall dbg e i tx n os p plan,
  input_text e i tx -> calls parser_next n (parser_start dbg e i) = (os, p) -> Forall succeeded os -> existsb is_stream_end_event (events_of os) = true ->
  let ds := map e_data (events_of os) in
  Forall readable ds -> Forall on_one_line ds -> (2 < length ds)%nat -> N.of_nat (length ds) < 214748364 ->
  Forall ascii_names (map noted ds) -> abbreviable (map noted ds) -> Forall foldable ds -> visible_root (map noted (tl ds)) ->
  exists out r s', parser_tool n (parser_start dbg e i) = (out, PDone) /\ emitter_tool out plan = (r, s') /\
  (r = EDone \/ exists k, r = EEmit (Err (EIo (OtherIo k))) /\ In k (write_failures (tool_emitter plan))) /\
  (r = EDone -> forall dbg' e' i', Prop_Canonical.delivers i' (output s') -> e' = Utf8 \/ e' = EncAny /\ first_read_ok i' /\ hd 0 (output s') <> 239 ->
    exists es, Forall2 same_note ds (map e_data es) /\
    forall k, fst (calls parser_next (length es + k) (parser_start dbg' e' i')) = map (fun e => Ok (Some e)) es ++ repeat (Ok None) k).
Proof.
  intros dbg e i tx n os p plan Hi H Hr Hend ds Hrd Hol Hlen Hmax Ha Hab Hf Hvr.
  destruct (C52_printed_events _ _ _ _ _ _ H Hr) as (ls & P & T & _ & L). cbv zeta in T, L. specialize (T Hend 0%nat). rewrite Nat.add_0_r in T.
  pose proof (proj2 L (conj Hrd Hol)) as Rd. clear L P. set (out := flat_map (fun l => l ++ [10]) ls) in *. clearbody out. clear ls. fold ds in Rd.
  pose proof (parsed_valid true _ _ _ _ _ _ H Hr) as V. pose proof (parsed_values _ _ _ _ _ _ _ Hi H Hr) as U. fold ds in U.
  destruct (C10_events_follow_the_grammar _ _ _ _ _ _ H Hr) as [_ St]. specialize (St Hend). fold ds in St.
  assert (Vd : Forall (valid_event true) ds) by (unfold ds; exact (proj2 (Forall_map _ _ _) V)). clear V H Hr Hend Hi. clearbody ds.
  pose proof St as St0. destruct St0 as (ev & docs & _ & X). destruct ds as [|d0 r]; [discriminate X|]. injection X as -> Xr.
  exists out. unfold emitter_tool. rewrite (emit_lines_run _ _ _ Rd). cbn [map noted] in *.
  set (l := map (fun d => CEmit (event_new d)) (map noted r)) in *.
  assert (Em : map e_data (emitted l) = map noted r). { unfold l. clear. induction r as [|d r IH]; [reflexivity|]. cbn. f_equal. exact IH. }
  assert (Ef : Forall (fun x => True) (emitted l)) by (apply Forall_forall; auto).
  assert (All : forall Q : event_data -> Prop, Forall Q (map noted r) -> Forall (fun e => Q (e_data e)) (emitted l)). { intros Q F. rewrite <- Em in F. exact (proj1 (Forall_map _ _ _) F). }
  pose proof (C47_layout_round_trip tool_settings plan Utf8 l eq_refl eq_refl) as C. rewrite Em in C.
  destruct C as (x & s' & R & O & K).
  - apply grun_end. apply stream_grun in St. cbn [grun gstep] in St |- *. exact (eq_trans (noted_grun r GDocs) (f_equal (option_map strip) St)).
  - intros Z. apply (f_equal (@length _)) in Z. rewrite map_length in Z. cbn [length] in Z, Hlen. lia.
  - apply All. apply Forall_inv_tail in Vd. clear -Vd. induction Vd as [|d r Hd _ IH]; [constructor|]. cbn [map]. constructor; [apply noted_valid, Hd|exact IH].
  - apply (All plain_data). apply Forall_inv_tail in U. apply Forall_inv_tail in Ha. clear - U Ha. induction r as [|d r IH]; [constructor|]. cbn [map] in *.
    constructor; [|apply IH; [exact (Forall_inv_tail Ha)|exact (Forall_inv_tail U)]]. apply Forall_inv in U. apply Forall_inv in Ha. 
    destruct d as [| | | | |a [t|] v pi qi sy|a [t|]| |a [t|]|]; cbn in *; try exact Logic.I; try exact Ha; auto.
  - apply (abbreviable_tail _ _ Hab).
  - apply (All foldable). apply Forall_inv_tail in Hf. clear -Hf. induction Hf as [|d r Hd _ IH]; [constructor|]. cbn [map]. constructor; [|exact IH]. destruct d; exact Hd.
  - apply short_shallow. rewrite map_length. cbn [length] in Hmax. lia.
  - exact Hvr.
  - rewrite start_run, R.
    exists (match x with Ok _ => EDone | y => EEmit y end), s'. split; [exact T|]. split; [reflexivity|]. split.
    + destruct O as [->|(k & -> & Hk)]; [left; reflexivity|right; exists k; split; [reflexivity|rewrite same_failures; exact Hk]].
    + intros D. assert (Hx : x = Ok tt) by (destruct x as [[]|z|z|]; [reflexivity|discriminate..]). clear D. intros dbg' e' i' Hd He. destruct (K Hx dbg' e' i' Hd He) as (es & F & Hk). exists es. split; [|exact Hk].
      clear -F. assert (G : forall a b, Forall2 told (map noted a) b -> Forall2 same_note a b).
      { induction a as [|d a IH]; intros b Fb; inversion Fb; subst; constructor; [apply noted_told; assumption|apply IH; assumption]. }
      apply G. exact F.
Qed.
Print Assumptions C53_tools_round_trip.

(** ** A case *)
Definition tl_text : str :=
  lit "%TAG !e! tag:e,2000:" ++ [10] ++ lit "--- # start" ++ [10] ++ lit "a b: &x !e!t [1, 'it''s' , ""\u00e9 t\e""]" ++ [10] ++
  lit "? - !!str p" ++ [10] ++ lit "    q" ++ [10] ++ lit "  -   r: *x" ++ [10] ++ lit ": &y ! <v" ++ [10] ++ lit "..." ++ [10] ++ lit "---" ++ [10] ++ lit "- |" ++ [10] ++ lit "   one\t" ++ [13; 10; 10] ++ lit "     two" ++ [10; 10].
Definition tl_source : source := Mk_source [] (map (fun b => SData [b]) (encode_utf8 tl_text)).
Notation tl_run := (calls parser_next 40 (parser_start true EncAny tl_source)).
Notation tl_events := (map e_data (events_of (fst tl_run))).
Example tl_input : input_text EncAny tl_source tl_text.
Proof.
  split; [repeat constructor; discriminate|]. split; [let t := eval vm_compute in tl_text in change tl_text with t; repeat apply Forall_cons; try apply Forall_nil; unfold yaml_char; lia|].
  split; [vm_compute; reflexivity|]. exists (encode_utf8 tl_text). split; [apply utf8_text_encode; split; [repeat constructor|reflexivity]|].
  split; [right; vm_compute; exact Logic.I|]. right. split; [vm_compute; reflexivity|vm_compute; discriminate].
Qed.
Definition tl_lines : list str := [
  lit "+STR";
  lit "+DOC ---";
  lit "+MAP";
  lit "=VAL :a b";
  lit "+SEQ &x <tag:e,2000:t>";
  lit "=VAL :1";
  lit "=VAL 'it's";
  lit "=VAL """ ++ [233] ++ lit " t" ++ [27];
  lit "-SEQ";
  lit "+SEQ";
  lit "=VAL <tag:yaml.org,2002:str> :p q";
  lit "+MAP";
  lit "=VAL :r";
  lit "=ALI *x";
  lit "-MAP";
  lit "-SEQ";
  lit "=VAL &y <!> :<v";
  lit "-MAP";
  lit "-DOC ...";
  lit "+DOC ---";
  lit "+SEQ";
  lit "=VAL |one\\t\n\n  two\n";
  lit "-SEQ";
  lit "-DOC";
  lit "-STR"].
Example tl_printed : parser_tool 40 (parser_start true EncAny tl_source) = (flat_map (fun l => l ++ [10]) tl_lines, PDone).
Proof. vm_compute. reflexivity. Qed.
Lemma no_amp_test l : existsb (N.eqb 38) l = false -> no_ampersand l.
Proof. intros H. apply no_amp_none. intros K. assert (existsb (N.eqb 38) l = true); [|congruence]. apply existsb_exists. exists 38. split; [exact K|reflexivity]. Qed.
Lemma not_in_test (c : N) l : existsb (N.eqb c) l = false -> ~ In c l.
Proof. intros H K. assert (existsb (N.eqb c) l = true); [|congruence]. apply existsb_exists. exists c. split; [exact K|apply N.eqb_refl]. Qed.
Lemma no_angles_test l : existsb (N.eqb 62) l = false -> no_angles l.
Proof. intros H x y z ->. revert H. apply not_false_iff_true, existsb_exists. exists 62. split; [|reflexivity]. apply in_app_iff. right. right. apply in_app_iff. right. left. reflexivity. Qed.
Lemma spaced_test t : existsb (N.eqb 32) t = false -> spaced_tag t.
Proof.
  intros H. apply not_in_test in H. split.
  - intros x c y ->. exfalso. apply H, in_app_iff. right. left. reflexivity.
  - intros x ->. apply H, in_app_iff. right. left. reflexivity.
Qed.
Example tl_readable : Forall readable tl_events /\ Forall on_one_line tl_events.
Proof.
  split.
  - match goal with |- Forall _ ?x => let t := eval vm_compute in x in change x with t end.
    repeat apply Forall_cons; try apply Forall_nil; try exact Logic.I; (split; [intros Z; try discriminate Z; try split|]); try (apply not_in_test; reflexivity); try (apply no_amp_test; reflexivity); try (apply no_angles_test; reflexivity); try exact Logic.I;
    (split; [apply not_in_test; reflexivity|apply spaced_test; reflexivity]).
  - match goal with |- Forall _ ?x => let t := eval vm_compute in x in change x with t end. repeat apply Forall_cons; try apply Forall_nil; apply not_in_test; reflexivity.
Qed.
Example tl_rest : Forall succeeded (fst tl_run) /\ existsb is_stream_end_event (events_of (fst tl_run)) = true /\ length tl_events = 25%nat /\ Forall ascii_names (map noted tl_events) /\
  abbreviable (map noted tl_events) /\ Forall foldable tl_events /\ visible_root (map noted (tl tl_events)).
Proof.
  split; [match goal with |- Forall _ ?x => let t := eval vm_compute in x in change x with t end; repeat apply Forall_cons; try apply Forall_nil; exact Logic.I|].
  split; [vm_compute; reflexivity|]. split; [vm_compute; reflexivity|]. split; [|split; [apply Prop_Canonical.abbrevs_abbreviable; vm_compute; reflexivity|split]].
  - match goal with |- Forall _ ?x => let t := eval vm_compute in x in change x with t end. repeat apply Forall_cons; try apply Forall_nil; try exact Logic.I; repeat split; repeat apply Forall_cons; try apply Forall_nil; reflexivity.
  - match goal with |- Forall _ ?x => let t := eval vm_compute in x in change x with t end. repeat apply Forall_cons; try apply Forall_nil; exact Logic.I.
  - vm_compute. exact Logic.I.
Qed.
Definition tl_output : list byte := output (snd (emitter_tool (flat_map (fun l => l ++ [10]) tl_lines) [])).
Example tl_emitted : fst (emitter_tool (flat_map (fun l => l ++ [10]) tl_lines) []) = EDone /\ tl_output = encode_utf8 (
  lit "---" ++ [10] ++
  lit "a b: &x !<tag:e,2000:t>" ++ [10] ++
  lit "- 1" ++ [10] ++
  lit "- 'it''s'" ++ [10] ++
  lit "- ""\xE9 t\e""" ++ [10] ++
  lit "? - !!str p q" ++ [10] ++
  lit "  - r: *x" ++ [10] ++
  lit ": &y !<%21> <v" ++ [10] ++
  lit "..." ++ [10] ++
  lit "---" ++ [10] ++
  lit "- |" ++ [10] ++
  lit "  one\t" ++ [10; 10] ++
  lit "    two" ++ [10]).
Proof. split; vm_compute; reflexivity. Qed.
Example tl_theorem : exists out r s', parser_tool 40 (parser_start true EncAny tl_source) = (out, PDone) /\ emitter_tool out [] = (r, s') /\ r = EDone /\
  forall dbg' e' i', Prop_Canonical.delivers i' (output s') -> e' = Utf8 \/ e' = EncAny /\ first_read_ok i' /\ hd 0 (output s') <> 239 ->
    exists es, Forall2 same_note tl_events (map e_data es) /\
    forall k, fst (calls parser_next (length es + k) (parser_start dbg' e' i')) = map (fun e => Ok (Some e)) es ++ repeat (Ok None) k.
Proof.
  destruct tl_rest as (P1 & P2 & P3 & P4 & P5 & P6 & P7). destruct tl_readable as [Q1 Q2].
  destruct (C53_tools_round_trip true EncAny tl_source tl_text 40 (fst tl_run) (snd tl_run) [] tl_input) as (out & r & s' & T & E & O & K).
  - destruct tl_run. reflexivity.
  - exact P1.
  - exact P2.
  - exact Q1.
  - exact Q2.
  - rewrite P3. repeat constructor.
  - rewrite P3. reflexivity.
  - exact P4.
  - exact P5.
  - exact P6.
  - exact P7.
  - exists out, r, s'. split; [exact T|]. split; [exact E|]. destruct O as [->|(k & _ & O)]; [|vm_compute in O; destruct O]. split; [reflexivity|]. exact (K eq_refl).
Qed.

(** What does not come back: an ampersand in a value is taken for an anchor (here, one without a
    name, so that the emitter program fails), and angles are taken for a tag. *)
Definition ampersand_source : source := Mk_source [] (map (fun b => SData [b]) (encode_utf8 (lit "- a & b"))).
Definition angles_source : source := Mk_source [] (map (fun b => SData [b]) (encode_utf8 (lit "- a <b> &c"))).
Theorem C52_ampersand_refuted :
  fst (emitter_tool (fst (parser_tool 40 (parser_start true EncAny ampersand_source))) []) = EEmit (Err (EEmitter "anchor value must not be empty")) /\
  (let (r, s) := emitter_tool (fst (parser_tool 40 (parser_start true EncAny angles_source))) [] in r = EDone /\ output s = lit "- &c !<b> a <b> &c" ++ [10]).
Proof. split; [vm_compute; reflexivity|]. vm_compute. split; reflexivity. Qed.
Print Assumptions C52_ampersand_refuted.
