(** EmitGrammar.v -- the emitter follows the event grammar: its state and its stacks are those of
    the automaton of EventFacts.v. *)
From Coq Require Import ZifyBool ZifyNat ZifyN.
From Verif Require Import Base Utf Chars EState Emitter Api Wp Spec_Events EventFacts.

(** What writing does not change. *)
Definition ctl (s : est) : est :=
  set_em_writer None (set_em_buffer [] (set_em_raw [] (set_em_column 0%Z (set_em_line 0%Z
    (set_em_whitespace false (set_em_indention false (set_em_open_ended 0%Z s))))))).
Definition live (s : est) : Prop := em_writer s <> None /\ em_encoding s <> EncAny /\ (2 <= em_best_indent s <= 9)%Z.
Definition io_error (x : error) : Prop := exists k, x = EIo (OtherIo k).

(** [V m]: [m] only writes. *)
Definition V {A} (m : M est A) : Prop := forall s, live s ->
  wp m (fun _ s' => live s' /\ ctl s' = ctl s) (fun x _ => io_error x) (fun _ => False) s.
Lemma V_ret {A} (a : A) : V (ret a). Proof. intros s H. apply wp_ret. auto. Qed.
Lemma V_bind {A B} (m : M est A) (k : A -> M est B) : V m -> (forall a, V (k a)) -> V (bind m k).
Proof.
  intros H1 H2 s H. eapply wp_seq; [apply H1, H| |auto|auto]. intros a s1 [L1 C1].
  eapply wp_conseq; [apply H2, L1| |auto|auto]. intros b s2 [L2 C2]. split; [exact L2|congruence].
Qed.
Lemma V_get {A} (k : est -> M est A) : (forall s, live s -> V (k s)) -> V (bind get k).
Proof. intros H s L. apply wp_bind, wp_get. apply H; exact L. Qed.
Lemma V_modify f : (forall s, ctl (f s) = ctl s /\ em_writer (f s) = em_writer s) -> V (modify f).
Proof.
  intros H s (L1 & L2 & L3). apply wp_modify. destruct (H s) as [Hc Hw]. split; [|exact Hc].
  pose proof (f_equal em_encoding Hc) as He. pose proof (f_equal em_best_indent Hc) as Hb. cbn in He, Hb.
  unfold live. rewrite Hw, He, Hb. auto.
Qed.
Lemma V_when b m : V m -> V (when b m). Proof. intros H. destruct b; [exact H|apply V_ret]. Qed.
Lemma V_iterM {A} (f : A -> M est unit) l : (forall x, V (f x)) -> V (iterM f l).
Proof. intros H. induction l as [|x l IH]; cbn [iterM]; [apply V_ret|]. apply V_bind; [apply H|intros _; exact IH]. Qed.
Lemma V_write_all l : V (write_all_m l).
Proof.
  intros s (L1 & L2 & L3). unfold wp, write_all_m. destruct (em_writer s) as [w|] eqn:Ew; [|destruct (L1 eq_refl)].
  unfold write_all. destruct (w_plan w) as [|[|k x] r]; [..|exists x; reflexivity];
  (split; [split; [discriminate|split; assumption]|reflexivity]).
Qed.
Lemma V_flush : V flush.
Proof.
  unfold flush. apply V_get. intros s (L1 & L2 & L3). destruct (em_writer s) eqn:Ew; [|destruct (L1 eq_refl)].
  destruct (em_encoding s) eqn:Ee; [destruct (L2 eq_refl)|..]; cbn [encoding_eqb]; (destruct (is_empty (em_buffer s)); [apply V_ret|]);
  repeat (first [apply V_write_all | apply V_get; intros ? ? | apply V_bind; [|intros ?] | apply V_modify; intros; split; reflexivity]).
Qed.
Create HintDb vv.
Global Hint Resolve V_flush : vv.
Ltac v1 :=
  lazymatch goal with
  | |- V (ret _) => apply V_ret
  | |- V (bind get _) => apply V_get; let s := fresh "s" in let L := fresh "L" in intros s L; cbv beta
  | |- V (bind _ _) => apply V_bind; [|let x := fresh "x" in intros x; cbv beta]
  | |- V (modify _) => apply V_modify; intros; split; reflexivity
  | |- V (when _ _) => apply V_when
  | |- V (iterM _ _) => apply V_iterM; intros ?
  | |- V (if ?b then _ else _) => destruct b eqn:?
  | |- V (match ?x with _ => _ end) => destruct x eqn:?
  | |- _ => auto with vv
  end.
Ltac vs := repeat v1.
Tactic Notation "vu" constr(f) := unfold f; vs.
Lemma V_fin : V flush_if_needed. Proof. vu flush_if_needed. Qed.
Lemma V_out l : V (out l). Proof. vu out. Qed.
Lemma V_col l : V (add_column l). Proof. vu add_column. Qed.
Lemma V_nl : V new_line. Proof. vu new_line. Qed.
Global Hint Resolve V_fin V_out V_col V_nl : vv.
Lemma V_put x : V (put x). Proof. vu put. Qed.
Lemma V_put_break : V put_break. Proof. vu put_break. Qed.
Lemma V_write_str x : V (write_str x). Proof. vu write_str. Qed.
Lemma V_write_char x : V (write_char x). Proof. vu write_char. Qed.
Global Hint Resolve V_put V_put_break V_write_str V_write_char : vv.
Lemma V_write_break x : V (write_break x). Proof. vu write_break. Qed.
Lemma V_put_spaces n : V (put_spaces n). Proof. induction n; cbn [put_spaces]; vs. Qed.
Lemma V_set_ws a b : V (set_ws a b). Proof. vu set_ws. Qed.
Lemma V_set_indention a : V (set_indention a). Proof. vu set_indention. Qed.
Global Hint Resolve V_write_break V_put_spaces V_set_ws V_set_indention : vv.
Lemma V_write_indent : V write_indent. Proof. vu write_indent. Qed.
Lemma V_write_indicator a b c d : V (write_indicator a b c d). Proof. vu write_indicator. Qed.
Global Hint Resolve V_write_indent V_write_indicator : vv.
Lemma V_write_anchor v : V (write_anchor v). Proof. vu write_anchor. Qed.
Lemma V_write_tag_handle v : V (write_tag_handle v). Proof. vu write_tag_handle. Qed.
Lemma V_write_tag_content v b : V (write_tag_content v b). Proof. vu write_tag_content. Qed.
Lemma V_write_bom : V write_bom. Proof. vu write_bom. Qed.
Global Hint Resolve V_write_anchor V_write_tag_handle V_write_tag_content V_write_bom : vv.
Lemma V_plain_loop a l : forall b c, V (plain_loop a b c l).
Proof. induction l as [|x l IH]; intros b c; cbn [plain_loop]; vs. Qed.
Lemma V_single_loop a l : forall b c d, V (single_loop a b c d l).
Proof. induction l as [|x l IH]; intros b c d; cbn [single_loop]; vs. Qed.
Lemma V_double_loop a l : forall b c, V (double_loop a b c l).
Proof. induction l as [|x l IH]; intros b c; cbn [double_loop]; vs. Qed.
Lemma V_literal_loop l : forall b, V (literal_loop b l).
Proof. induction l as [|x l IH]; intros b; cbn [literal_loop]; vs. Qed.
Lemma V_folded_loop l : forall b c, V (folded_loop b c l).
Proof. induction l as [|x l IH]; intros b c; cbn [folded_loop]; cbv zeta; vs. Qed.
Global Hint Resolve V_plain_loop V_single_loop V_double_loop V_literal_loop V_folded_loop : vv.
Lemma V_write_plain_scalar v b : V (write_plain_scalar v b). Proof. vu write_plain_scalar. Qed.
Lemma V_write_single_quoted_scalar v b : V (write_single_quoted_scalar v b). Proof. vu write_single_quoted_scalar. Qed.
Lemma V_write_double_quoted_scalar v b : V (write_double_quoted_scalar v b). Proof. vu write_double_quoted_scalar. Qed.
Lemma V_write_block_scalar_hints v : V (write_block_scalar_hints v).
Proof.
  unfold write_block_scalar_hints. apply V_get. intros s (_ & _ & L). replace ((0 <=? em_best_indent s) && (em_best_indent s <? 10))%Z with true by lia. vs.
Qed.
Global Hint Resolve V_write_plain_scalar V_write_single_quoted_scalar V_write_double_quoted_scalar V_write_block_scalar_hints : vv.
Lemma V_write_literal_scalar v : V (write_literal_scalar v). Proof. vu write_literal_scalar. Qed.
Lemma V_write_folded_scalar v : V (write_folded_scalar v). Proof. vu write_folded_scalar. Qed.
Global Hint Resolve V_write_literal_scalar V_write_folded_scalar : vv.
Lemma V_process_anchor a : V (process_anchor a). Proof. vu process_anchor. Qed.
Lemma V_process_tag a : V (process_tag a). Proof. vu process_tag. Qed.
Lemma V_process_scalar v st : st <> SAny -> V (process_scalar v st).
Proof. intros H. unfold process_scalar. destruct st; [destruct (H eq_refl)|..]; vs. Qed.
Lemma V_wrap_line : V wrap_line. Proof. vu wrap_line. Qed.
Global Hint Resolve V_process_anchor V_process_tag V_process_scalar V_wrap_line : vv.

(** ** Names *)
From Verif Require Import Spec_EmitNames.
Lemma alpha_name c : is_alpha_c c = true <-> name_char c.
Proof. unfold is_alpha_c, name_char, in_range. lia. Qed.
Lemma alpha_names s : forallb is_alpha_c s = true <-> Forall name_char s.
Proof. rewrite forallb_forall, Forall_forall. split; intros H x Hx; apply alpha_name, H, Hx. Qed.
Lemma is_empty_true {A} (l : list A) : is_empty l = true -> l = []. Proof. destruct l; [auto|discriminate]. Qed.
Lemma is_empty_false {A} (l : list A) : is_empty l = false -> l <> []. Proof. destruct l; [discriminate|discriminate]. Qed.
Definition refuses (x : error) : Prop := exists m, x = EEmitter m.

Lemma anchor_spec a b s : wp (analyze_anchor a b) (fun r s' => s' = s /\ r = (a, b) /\ valid_name a)
  (fun x s' => s' = s /\ refuses x /\ ~ valid_name a) (fun _ => False) s.
Proof.
  unfold analyze_anchor. destruct (is_empty a) eqn:E1.
  { split; [reflexivity|]. split; [eexists; reflexivity|]. intros [H _]. apply H, is_empty_true, E1. }
  destruct (forallb is_alpha_c a) eqn:E2; cbn [negb].
  - split; [reflexivity|]. split; [reflexivity|]. split; [apply is_empty_false, E1|apply alpha_names, E2].
  - split; [reflexivity|]. split; [eexists; reflexivity|]. intros [_ H]. apply alpha_names in H. congruence.
Qed.
Lemma opt_anchor_spec a s : wp (analyze_opt_anchor a) (fun r s' => s' = s /\ all valid_name a)
  (fun x s' => s' = s /\ refuses x /\ ~ all valid_name a) (fun _ => False) s.
Proof.
  destruct a as [a|]; cbn [analyze_opt_anchor all]; [|split; auto]. eapply wp_seq; [apply anchor_spec| |auto|auto].
  intros r s' (-> & _ & H). split; auto.
Qed.
Lemma split_ascii (t : str) : Forall (fun c => c < 128) t -> forall n, n < str_len t -> split_bytes n t <> None.
Proof.
  induction 1 as [|c t Hc Ht IH]; intros n Hn; cbn [split_bytes].
  - unfold str_len in Hn. cbn in Hn. lia.
  - destruct (n =? 0) eqn:E; [discriminate|]. assert (L : len_utf8 c = 1) by (unfold len_utf8; replace (c <? 128) with true by lia; reflexivity).
    rewrite L. replace (n <? 1) with false by lia. specialize (IH (n - 1)). 
    assert (Hs : str_len (c :: t) = 1 + str_len t) by (rewrite <- L; reflexivity). rewrite Hs in Hn.
    destruct (split_bytes (n - 1) t) as [[x y]|]; [discriminate|]. intros _. apply IH; [lia|reflexivity].
Qed.
Lemma tag_loop_spec (t : str) tds s : Forall (fun c => c < 128) t ->
  wp (analyze_tag_loop t tds) (fun r s' => s' = s) (fun _ _ => False) (fun _ => False) s.
Proof.
  intros Ht. induction tds as [|td r IH]; cbn [analyze_tag_loop]; [reflexivity|].
  destruct (str_len (td_prefix td) <? str_len t) eqn:E; [|exact IH].
  destruct (split_bytes (str_len (td_prefix td)) t) as [[a b]|] eqn:E2; [|destruct (split_ascii t Ht _ (proj1 (N.ltb_lt _ _) E) E2)].
  destruct (str_eqb (td_prefix td) a); [reflexivity|exact IH].
Qed.
Lemma opt_tag_spec (t : option str) b tds s : all (Forall (fun c => c < 128)) t ->
  wp (analyze_opt_tag t b tds) (fun r s' => s' = s /\ all (fun t => t <> []) (if b then t else None) /\ (r = None <-> (if b then t else None) = None))
  (fun x s' => s' = s /\ refuses x /\ ~ all (fun t => t <> []) (if b then t else None)) (fun _ => False) s.
Proof.
  intros Ht. destruct t as [t|]; cbn [analyze_opt_tag]; [|destruct b; repeat split; auto]. destruct b; [|repeat split; auto].
  apply wp_bind. unfold analyze_tag. destruct (is_empty t) eqn:E.
  - unfold wp, emitter_error, fail. split; [reflexivity|]. split; [eexists; reflexivity|]. cbn. intros H. apply H, is_empty_true, E.
  - eapply wp_conseq; [apply tag_loop_spec, Ht| |contradiction|auto]. intros r s' ->. apply wp_ret. split; [reflexivity|]. split; [apply is_empty_false, E|].
    split; discriminate.
Qed.

(** The analysis of an event. *)
Definition matches (s : est) (e : event) (an : analysis) : Prop :=
  valid_names (em_canonical s) (e_data e) /\
  match e_data e with
  | EvScalar _ _ v _ _ _ => an_scalar an = Some (analyze_scalar (em_unicode s) v)
  | _ => True
  end /\
  (an_tag an = None <-> written_tag (em_canonical s) (e_data e) = None).
Lemma event_spec e tds s : ascii_tag (e_data e) ->
  wp (analyze_event e tds) (fun an s' => s' = s /\ matches s e an)
  (fun x s' => s' = s /\ refuses x /\ ~ valid_names (em_canonical s) (e_data e)) (fun _ => False) s.
Proof.
  intros Ha. unfold analyze_event. apply wp_bind, wp_get. unfold matches, valid_names.
  destruct (e_data e) as [en| |vd tdl i|i|a|a t v pi qi st|a t i st| |a t i st|] eqn:Ed; cbn [anchor_in written_tag all];
    try (split; [reflexivity|]; repeat split; auto).
  - eapply wp_seq; [apply anchor_spec| |intros x s' (H1 & H2 & H3); tauto|auto]. intros r s' (-> & _ & H). repeat split; auto; apply H.
  - eapply wp_seq; [apply opt_anchor_spec| |intros x s' (H1 & H2 & H3); tauto|auto]. intros ra s' (-> & Hra).
    assert (Ht : all (Forall (fun c => c < 128)) t) by (destruct t; [exact Ha|exact I]).
    eapply wp_seq; [apply opt_tag_spec, Ht| |intros x s' (H1 & H2 & H3); tauto|auto]. intros rt s' (-> & Hrt & Hn).
    cbn. tauto.
  - eapply wp_seq; [apply opt_anchor_spec| |intros x s' (H1 & H2 & H3); tauto|auto]. intros ra s' (-> & Hra).
    assert (Ht : all (Forall (fun c => c < 128)) t) by (destruct t; [exact Ha|exact I]).
    eapply wp_seq; [apply opt_tag_spec, Ht| |intros x s' (H1 & H2 & H3); tauto|auto]. intros rt s' (-> & Hrt & Hn).
    cbn. tauto.
  - eapply wp_seq; [apply opt_anchor_spec| |intros x s' (H1 & H2 & H3); tauto|auto]. intros ra s' (-> & Hra).
    assert (Ht : all (Forall (fun c => c < 128)) t) by (destruct t; [exact Ha|exact I]).
    eapply wp_seq; [apply opt_tag_spec, Ht| |intros x s' (H1 & H2 & H3); tauto|auto]. intros rt s' (-> & Hrt & Hn).
    cbn. tauto.
Qed.

(** ** One event *)
Lemma choose_not_any s pi st sa b : choose_style s pi st sa b <> SAny.
Proof.
  unfold choose_style. destruct st, (em_canonical s), (em_simple_key_context s), (sa_multiline sa); cbn [style_eqb andb];
  repeat (match goal with |- context [if ?b then _ else _] => destruct b; cbn [style_eqb andb orb] end); discriminate.
Qed.
Record kept (s s' : est) : Prop := {
  k_events : em_events s' = em_events s; k_canonical : em_canonical s' = em_canonical s; k_unicode : em_unicode s' = em_unicode s }.
Lemma kept_refl s : kept s s. Proof. constructor; reflexivity. Qed.
Lemma kept_trans a b c : kept a b -> kept b c -> kept a c. Proof. intros [] []. constructor; congruence. Qed.
Lemma kept_ctl s s' : ctl s' = ctl s -> kept s s'.
Proof. intros H. constructor; [apply (f_equal em_events) in H|apply (f_equal em_canonical) in H|apply (f_equal em_unicode) in H]; exact H. Qed.
(** the stacks *)
Definition stacks (s : est) := (em_state s, em_states s, em_indents s, em_tag_directives s).
Lemma stacks_ctl s s' : ctl s' = ctl s -> stacks s' = stacks s.
Proof.
  intros H. unfold stacks. pose proof (f_equal em_state H) as H1. pose proof (f_equal em_states H) as H2. pose proof (f_equal em_indents H) as H3. pose proof (f_equal em_tag_directives H) as H4.
  cbn in H1, H2, H3, H4. congruence.
Qed.
Definition posts (s : est) (a : estate * list estate * list Z * list tag_directive) (s' : est) : Prop := live s' /\ kept s s' /\ stacks s' = a.
Lemma V_posts {A} (m : M est A) s : V m -> live s -> wp m (fun _ s' => posts s (stacks s) s') (fun x _ => io_error x) (fun _ => False) s.
Proof. intros H L. eapply wp_conseq; [apply H, L| |auto|auto]. intros a s' [L' C]. split; [exact L'|]. split; [apply kept_ctl, C|apply stacks_ctl, C]. Qed.
Lemma pop_estate_spec s x r ins tds st : live s -> stacks s = (st, x :: r, ins, tds) ->
  wp pop_estate (fun _ s' => posts s (x, r, ins, tds) s') (fun x _ => io_error x) (fun _ => False) s.
Proof.
  intros L E. injection E as E1 E2 E3 E4. unfold wp, pop_estate. rewrite E2. split; [exact L|]. split; [constructor; reflexivity|].
  unfold stacks. cbn. congruence.
Qed.
Lemma pop_indent_spec s x r sts tds st : live s -> stacks s = (st, sts, x :: r, tds) ->
  wp pop_indent (fun _ s' => posts s (st, sts, r, tds) s') (fun x _ => io_error x) (fun _ => False) s.
Proof.
  intros L E. injection E as E1 E2 E3 E4. unfold wp, pop_indent. rewrite E3. split; [exact L|]. split; [constructor; reflexivity|].
  unfold stacks. cbn. congruence.
Qed.
Lemma increase_indent_spec a b s ins sts tds st : live s -> stacks s = (st, sts, ins, tds) ->
  wp (increase_indent a b) (fun _ s' => exists i, posts s (st, sts, i :: ins, tds) s') (fun x _ => io_error x) (fun _ => False) s.
Proof.
  intros L E. injection E as E1 E2 E3 E4. unfold increase_indent. apply wp_modify. exists (em_indent s). cbv zeta.
  destruct (em_indent _ <? 0)%Z; [|destruct (negb b)]; (split; [exact L|]; split; [constructor; reflexivity|]; unfold stacks; cbn; congruence).
Qed.
Definition node_errors (e : event) (x : error) : Prop :=
  io_error x \/ refuses x /\ match e_data e with EvScalar _ _ _ _ _ _ => ~ valid_flags (e_data e) | EvAlias _ | EvSequenceStart _ _ _ _ | EvMappingStart _ _ _ _ => False | _ => True end.
Definition node_post (e : event) (s : est) (st x : estate) (r : list estate) ins tds (s' : est) : Prop :=
  valid_flags (e_data e) /\
  match e_data e with
  | EvAlias _ | EvScalar _ _ _ _ _ _ => posts s (x, r, ins, tds) s'
  | EvSequenceStart _ _ _ _ => posts s (EFlowSequenceFirstItem, x :: r, ins, tds) s' \/ posts s (EBlockSequenceFirstItem, x :: r, ins, tds) s'
  | EvMappingStart _ _ _ _ => posts s (EFlowMappingFirstKey, x :: r, ins, tds) s' \/ posts s (EBlockMappingFirstKey, x :: r, ins, tds) s'
  | _ => False
  end.
Lemma matches_kept s s' e an : kept s s' -> matches s e an -> matches s' e an.
Proof. intros [H1 H2 H3] H. unfold matches in *. rewrite H2, H3. exact H. Qed.

(** running a quiet part *)
Ltac quiet := eapply wp_seq; [apply V_posts; [solve [auto 3 with vv]|assumption]| |auto|contradiction].
Lemma alias_spec an s st x r ins tds : live s -> stacks s = (st, x :: r, ins, tds) ->
  wp (emit_alias an) (fun _ s' => posts s (x, r, ins, tds) s') (fun x _ => io_error x) (fun _ => False) s.
Proof.
  intros L E. unfold emit_alias. quiet. intros _ s1 (L1 & K1 & E1). apply wp_bind, wp_get. eapply wp_seq; [apply V_posts; [apply V_when, V_put|assumption]| |auto|contradiction].
  intros _ s2 (L2 & K2 & E2). eapply wp_conseq; [eapply pop_estate_spec; [exact L2|rewrite E2, E1; exact E]| |auto|auto].
  intros _ s3 (L3 & K3 & E3). split; [exact L3|]. split; [|exact E3]. eapply kept_trans; [exact K1|]. eapply kept_trans; eassumption.
Qed.
Lemma scalar_spec e an s a t v pi qi sty st x r ins tds : live s -> stacks s = (st, x :: r, ins, tds) -> matches s e an -> 
  e_data e = EvScalar a t v pi qi sty ->
  wp (emit_scalar pi qi sty an) (fun _ s' => valid_flags (e_data e) /\ posts s (x, r, ins, tds) s') (fun x _ => io_error x \/ refuses x /\ ~ valid_flags (e_data e)) (fun _ => False) s.
Proof.
  intros L E (M1 & M2 & M3) Ed. rewrite Ed in M1, M2, M3 |- *. unfold emit_scalar. rewrite M2.
  set (sa := analyze_scalar (em_unicode s) v).
  assert (F : match an_tag an with None => true | Some _ => false end && negb pi && negb qi = true <-> ~ valid_flags (EvScalar a t v pi qi sty)).
  { cbn [valid_flags]. cbn [written_tag] in M3. destruct (an_tag an) as [[h y]|], t as [t|].
    - cbn. split; [discriminate|]. intros H. destruct (H I).
    - exfalso. destruct M3 as [_ M3]. destruct (em_canonical s || negb pi && negb qi); discriminate (M3 eq_refl).
    - destruct M3 as [M3 _]. specialize (M3 eq_refl). split; [|intros H; destruct (H I)]. destruct (em_canonical s), pi, qi; cbn in *; try discriminate.
    - destruct pi, qi; cbn; split; try discriminate; try solve [intros Hv; exfalso; apply Hv; auto]; try (intros _ [Hv|Hv]; discriminate Hv); auto. }
  unfold select_scalar_style. apply wp_bind. apply wp_bind, wp_get. cbv zeta. 
  destruct (match an_tag an with None => true | Some _ => false end && negb pi && negb qi) eqn:Eb.
  { apply wp_fail. right. split; [eexists; reflexivity|]. apply F. reflexivity. }
  assert (Vf : valid_flags (EvScalar a t v pi qi sty)).
  { destruct F as [_ F]. cbn [valid_flags] in *. destruct t; [exact I|]. destruct pi; [auto|]. destruct qi; [auto|]. exfalso.
    assert (false = true) by (apply F; intros [H|H]; discriminate H). discriminate. }
  apply wp_ret. cbv beta iota.
  pose proof (choose_not_any s pi sty sa match an_tag an with None => true | Some _ => false end) as Hst.
  revert Hst. generalize (choose_style s pi sty sa match an_tag an with None => true | Some _ => false end). intros style Hst.
  match goal with |- context [process_tag ?q] => generalize q end. intros tag.
  eapply wp_conseq with (E := fun x _ => io_error x) (P := fun _ => False) (Q := fun _ s' => posts s (x, r, ins, tds) s'); [|auto|auto|auto].
  quiet. intros _ s1 (L1 & K1 & E1). quiet. intros _ s2 (L2 & K2 & E2).
  eapply wp_seq; [eapply increase_indent_spec; [exact L2|rewrite E2, E1; exact E]| |auto|contradiction]. intros _ s3 (i & L3 & K3 & E3).
  eapply wp_seq; [apply V_posts; [apply V_process_scalar, Hst|assumption]| |auto|contradiction]. intros _ s4 (L4 & K4 & E4).
  eapply wp_seq; [eapply pop_indent_spec; [exact L4|rewrite E4; exact E3]| |auto|contradiction]. intros _ s5 (L5 & K5 & E5).
  eapply wp_conseq; [eapply pop_estate_spec; [exact L5|exact E5]| |auto|auto].
  intros _ s6 (L6 & K6 & E6). split; [exact L6|]. split; [|exact E6].
  repeat (eapply kept_trans; [eassumption|]). apply kept_refl.
Qed.
Lemma seq_start_spec d sty an s st x r ins tds : live s -> stacks s = (st, x :: r, ins, tds) ->
  wp (emit_sequence_start d sty an) (fun _ s' => posts s (EFlowSequenceFirstItem, x :: r, ins, tds) s' \/ posts s (EBlockSequenceFirstItem, x :: r, ins, tds) s') (fun x _ => io_error x) (fun _ => False) s.
Proof.
  intros L E. unfold emit_sequence_start. quiet. intros _ s1 (L1 & K1 & E1). quiet. intros _ s2 (L2 & K2 & E2). apply wp_bind, wp_get. unfold goto_estate. apply wp_modify.
  rewrite E1, E in E2. injection E2 as F1 F2 F3 F4. pose proof (kept_trans _ _ _ K1 K2) as K.
  destruct (_ || _); [left|right]; (split; [exact L2|]; split; [destruct K; constructor; assumption|unfold stacks; cbn; congruence]).
Qed.
Lemma map_start_spec d sty an s st x r ins tds : live s -> stacks s = (st, x :: r, ins, tds) ->
  wp (emit_mapping_start d sty an) (fun _ s' => posts s (EFlowMappingFirstKey, x :: r, ins, tds) s' \/ posts s (EBlockMappingFirstKey, x :: r, ins, tds) s') (fun x _ => io_error x) (fun _ => False) s.
Proof.
  intros L E. unfold emit_mapping_start. quiet. intros _ s1 (L1 & K1 & E1). quiet. intros _ s2 (L2 & K2 & E2). apply wp_bind, wp_get. unfold goto_estate. apply wp_modify.
  rewrite E1, E in E2. injection E2 as F1 F2 F3 F4. pose proof (kept_trans _ _ _ K1 K2) as K.
  destruct (_ || _); [left|right]; (split; [exact L2|]; split; [destruct K; constructor; assumption|unfold stacks; cbn; congruence]).
Qed.
Lemma node_spec e a b c d an s0 s st x r ins tds : live s -> stacks s = (st, x :: r, ins, tds) -> matches s e an -> kept s0 s ->
  wp (emit_node e a b c d an) (fun _ s' => node_post e s0 st x r ins tds s') (fun x _ => node_errors e x) (fun _ => False) s.
Proof.
  intros L E M K0. unfold emit_node. apply wp_bind, wp_modify.
  set (s1 := set_em_simple_key_context d _). 
  assert (L1 : live s1) by exact L. assert (K1 : kept s0 s1) by (destruct K0; constructor; assumption).
  assert (M1 : matches s1 e an) by exact M. assert (E1 : stacks s1 = (st, x :: r, ins, tds)) by exact E. clearbody s1.
  assert (P : forall q s', posts s1 q s' -> posts s0 q s') by (intros q s' (Q1 & Q2 & Q3); split; [exact Q1|]; split; [eapply kept_trans; eassumption|exact Q3]).
  unfold node_post, node_errors.
  destruct (e_data e) as [en| |vd tdl i|i|an0|an0 t v pi qi sty|an0 t i sty| |an0 t i sty|] eqn:Ed; cbn [valid_flags];
    try (apply wp_fail; right; split; [eexists; reflexivity|exact I]).
  - eapply wp_conseq; [eapply alias_spec; eassumption| |auto|auto]. intros ? s' H. auto.
  - pose proof (scalar_spec e an s1 an0 t v pi qi sty st x r ins tds L1 E1 M1 Ed) as H. rewrite Ed in H.
    eapply wp_conseq; [exact H| |auto|auto]. cbn beta. intros ? s' [Hv Hp]. auto.
  - eapply wp_conseq; [eapply seq_start_spec; eassumption| |auto|auto]. cbn beta. intros ? s' [H|H]; auto.
  - eapply wp_conseq; [eapply map_start_spec; eassumption| |auto|auto]. cbn beta. intros ? s' [H|H]; auto.
Qed.

(** ** The states *)
Definition cont (f : frame) (x : estate) : Prop :=
  match f, x with
  | FRoot, EDocumentContent | FDone, EDocumentEnd
  | FSeq, (EFlowSequenceItem | EBlockSequenceItem)
  | FKey, (EFlowMappingKey | EBlockMappingKey)
  | FVal, (EFlowMappingSimpleValue | EFlowMappingValue | EBlockMappingSimpleValue | EBlockMappingValue) => True
  | _, _ => False
  end.
Definition starting (f : frame) (x : estate) : Prop :=
  match f, x with
  | FSeq, (EFlowSequenceFirstItem | EBlockSequenceFirstItem) | FKey, (EFlowMappingFirstKey | EBlockMappingFirstKey) => True
  | _, _ => False
  end.
Definition coll (f : frame) : nat := match f with FSeq | FKey | FVal => 1%nat | _ => 0%nat end.
Definition colls (fs : list frame) : nat := list_sum (map coll fs).
Definition stk (fs : list frame) (st : estate) (sts : list estate) (n : nat) : Prop :=
  match fs with
  | [] => False
  | f :: r => (cont f st /\ n = colls fs \/ starting f st /\ n = colls r) /\ Forall2 cont r sts
  end.
Definition GI (g : gstate) (s : est) : Prop :=
  match g with
  | GStart => em_writer s <> None /\ em_state s = EStreamStart /\ em_states s = [] /\ em_indents s = []
  | GDocs => live s /\ (em_state s = EFirstDocumentStart \/ em_state s = EDocumentStart) /\ em_states s = [] /\ em_indents s = []
  | GDoc ds fs => live s /\ stk fs (em_state s) (em_states s) (length (em_indents s))
  | GEnd => live s /\ em_state s = EEnd
  end.
Definition closes (d : event_data) : Prop := match d with EvDocumentEnd _ | EvStreamEnd => True | _ => False end.
Definition step_ok (g : gstate) (e : event) (s0 s' : est) : Prop :=
  exists g', gstep g (e_data e) = Some g' /\ GI g' s' /\ kept s0 s' /\ valid_directives (e_data e) /\ valid_flags (e_data e) /\
    (closes (e_data e) -> em_buffer s' = []).
Definition step_err (g : gstate) (e : event) (x : error) : Prop :=
  io_error x \/ refuses x /\ (gstep g (e_data e) = None \/ ~ valid_directives (e_data e) \/ ~ valid_flags (e_data e)).
Definition is_node (d : event_data) : bool :=
  match d with EvAlias _ | EvScalar _ _ _ _ _ _ | EvSequenceStart _ _ _ _ | EvMappingStart _ _ _ _ => true | _ => false end.

Lemma gstep_node ds fs f' r d : after fs = Some (f' :: r) -> is_node d = true -> gstep (GDoc ds fs) d =
  Some (GDoc ds (match d with EvSequenceStart _ _ _ _ => FSeq :: f' :: r | EvMappingStart _ _ _ _ => FKey :: f' :: r | _ => f' :: r end)).
Proof.
  intros Ha Hn. destruct fs as [|[] fr]; try discriminate Ha; injection Ha as <- <-; destruct d; try discriminate Hn; reflexivity.
Qed.
Lemma after_step e ds fs f' r y sts ins tds st an s0 s a b c d :
  after fs = Some (f' :: r) -> cont f' y -> Forall2 cont r sts -> length ins = colls (f' :: r) ->
  (is_node (e_data e) = false -> gstep (GDoc ds fs) (e_data e) = None) ->
  live s -> stacks s = (st, sts, ins, tds) -> matches s e an -> kept s0 s ->
  wp (push_estate y ;; emit_node e a b c d an) (fun _ s' => step_ok (GDoc ds fs) e s0 s') (fun x _ => step_err (GDoc ds fs) e x) (fun _ => False) s.
Proof.
  intros Ha Hy Hs Hl Hn L E M K. apply wp_bind. unfold push_estate. apply wp_modify.
  injection E as E1 E2 E3 E4.
  eapply wp_conseq; [eapply (node_spec e a b c d an s0 _ st y sts ins tds)| | |auto].
  - exact L.
  - unfold stacks. cbn. congruence.
  - exact M.
  - destruct K; constructor; assumption.
  - cbn beta. intros ? s' [Vf P].
    assert (Hd : is_node (e_data e) = true) by (destruct (e_data e); try contradiction P; reflexivity).
    pose proof (gstep_node ds fs f' r _ Ha Hd) as G. unfold step_ok. rewrite G. eexists. split; [reflexivity|].
    destruct (e_data e) as [en| |vd tdl i|i|an0|an0 t v pi qi sty|an0 t i sty| |an0 t i sty|]; try discriminate Hd.
    + destruct P as (P1 & P2 & P3). injection P3 as Q1 Q2 Q3 Q4. split.
      * split; [exact P1|]. rewrite Q1, Q2, Q3. split; [left; auto|exact Hs].
      * split; [exact P2|]. split; [exact I|]. split; [exact Vf|]. intros [].
    + destruct P as (P1 & P2 & P3). injection P3 as Q1 Q2 Q3 Q4. split.
      * split; [exact P1|]. rewrite Q1, Q2, Q3. split; [left; auto|exact Hs].
      * split; [exact P2|]. split; [exact I|]. split; [exact Vf|]. intros [].
    + destruct P as [(P1 & P2 & P3)|(P1 & P2 & P3)]; injection P3 as Q1 Q2 Q3 Q4; (split;
      [split; [exact P1|]; rewrite Q1, Q2, Q3; split; [right; split; [exact I|exact Hl]|constructor; assumption]
      |split; [exact P2|]; split; [exact I|]; split; [exact Vf|intros []]]).
    + destruct P as [(P1 & P2 & P3)|(P1 & P2 & P3)]; injection P3 as Q1 Q2 Q3 Q4; (split;
      [split; [exact P1|]; rewrite Q1, Q2, Q3; split; [right; split; [exact I|exact Hl]|constructor; assumption]
      |split; [exact P2|]; split; [exact I|]; split; [exact Vf|intros []]]).
  - cbn beta. intros x s' [H|[H1 H2]]; [left; exact H|right]. split; [exact H1|].
    destruct (e_data e); try contradiction; try (left; apply Hn; reflexivity). right. right. exact H2.
Qed.
Lemma add_flow_spec n s q : live s -> stacks s = q -> wp (add_flow_level n) (fun _ s' => posts s q s') (fun x _ => io_error x) (fun _ => False) s.
Proof. intros L E. unfold add_flow_level. apply wp_modify. split; [exact L|]. split; [constructor; reflexivity|exact E]. Qed.

(** the end of a collection *)
Lemma close_stk ds r x sts n s s' ins tds :
  Forall2 cont r (x :: sts) -> n = colls r -> length ins = n -> posts s (x, sts, ins, tds) s' -> GI (GDoc ds r) s'.
Proof.
  intros H Hn Hl (L & K & E). injection E as E1 E2 E3 E4. inversion H as [|f0 x0 r0 sts0 H1 H2]; subst. split; [exact L|].
  cbn [stk]. split; [left; auto|exact H2].
Qed.
Lemma open_flow_spec (first : bool) (l : str) s st sts ins tds n : live s -> stacks s = (st, sts, ins, tds) -> length ins = (if first then n else S n) ->
  wp (when first (write_indicator l true true false ;; increase_indent true false ;; add_flow_level 1))
    (fun _ s' => exists ins', length ins' = S n /\ posts s (st, sts, ins', tds) s') (fun x _ => io_error x) (fun _ => False) s.
Proof.
  intros L E Hl. destruct first; cbn [when].
  - quiet. intros _ s1 (L1 & K1 & E1). eapply wp_seq; [eapply increase_indent_spec; [exact L1|rewrite E1; exact E]| |auto|contradiction].
    intros _ s2 (i & L2 & K2 & E2). eapply wp_conseq; [apply add_flow_spec; [exact L2|exact E2]| |auto|auto].
    intros _ s3 (L3 & K3 & E3). exists (i :: ins). split; [cbn; congruence|]. split; [exact L3|]. split; [|exact E3].
    repeat (eapply kept_trans; [eassumption|]). apply kept_refl.
  - apply wp_ret. exists ins. split; [exact Hl|]. split; [exact L|]. split; [apply kept_refl|exact E].
Qed.
Lemma close_flow_spec first c s st x sts i ins tds : live s -> stacks s = (st, x :: sts, i :: ins, tds) ->
  wp (close_flow first c) (fun _ s' => posts s (x, sts, ins, tds) s') (fun x _ => io_error x) (fun _ => False) s.
Proof.
  intros L E. unfold close_flow. eapply wp_seq; [apply add_flow_spec; [exact L|exact E]| |auto|contradiction]. intros _ s1 (L1 & K1 & E1).
  eapply wp_seq; [eapply pop_indent_spec; [exact L1|exact E1]| |auto|contradiction]. intros _ s2 (L2 & K2 & E2).
  apply wp_bind, wp_get. eapply wp_seq; [apply V_posts; [apply V_when; solve [vs]|assumption]| |auto|contradiction]. intros _ s3 (L3 & K3 & E3).
  quiet. intros _ s4 (L4 & K4 & E4). eapply wp_conseq; [eapply pop_estate_spec; [exact L4|rewrite E4, E3; exact E2]| |auto|auto].
  intros _ s5 (L5 & K5 & E5). split; [exact L5|]. split; [|exact E5]. repeat (eapply kept_trans; [eassumption|]). apply kept_refl.
Qed.
Lemma posts_trans a b c q r : posts a q b -> posts b r c -> posts a r c.
Proof. intros (L1 & K1 & E1) (L2 & K2 & E2). split; [exact L2|]. split; [eapply kept_trans; eassumption|exact E2]. Qed.
Lemma stack_pop r sts : Forall2 cont r sts -> stack_ok r -> exists x l, sts = x :: l.
Proof. intros H Hs. destruct H as [|f x r l]; [contradiction|]. eauto. Qed.
Lemma lift_io {A} (m : M est A) Q g e s : wp m Q (fun x _ => io_error x) (fun _ => False) s -> wp m Q (fun x _ => step_err g e x) (fun _ => False) s.
Proof. intros H. eapply wp_conseq; [exact H|auto| |auto]. intros x s' Hx. left. exact Hx. Qed.

Section collections.
  Variables (ds : list tag_directive) (e : event) (an : analysis) (r : list frame) (s : est) (st : estate) (sts : list estate) (ins : list Z) (tds : list tag_directive).
  Hypothesis Hr : stack_ok r.
  Hypothesis L : live s.
  Hypothesis E : stacks s = (st, sts, ins, tds).
  Hypothesis Hs : Forall2 cont r sts.
  Hypothesis M : matches s e an.

  Lemma closed_by f d s' q ins' : gstep (GDoc ds (f :: r)) d = Some (GDoc ds r) -> e_data e = d -> valid_directives d -> valid_flags d -> ~ closes d ->
    posts s (hd EEnd sts, tl sts, ins', q) s' -> length ins' = colls r -> step_ok (GDoc ds (f :: r)) e s s'.
  Proof.
    intros G Ed Vd Vf Hc P Hl. unfold step_ok. rewrite Ed. exists (GDoc ds r). split; [exact G|].
    destruct (stack_pop r sts Hs Hr) as (x & l & El). rewrite El in P. cbn [hd tl] in P. 
    split; [eapply close_stk; [rewrite <- El; exact Hs|reflexivity|exact Hl|exact P]|]. split; [apply P|]. split; [exact Vd|]. split; [exact Vf|]. intros H. destruct (Hc H).
  Qed.
  Lemma seq_none d : d <> EvSequenceEnd -> is_node d = false -> gstep (GDoc ds (FSeq :: r)) d = None.
  Proof. intros H1 H2. destruct d; try discriminate H2; try (destruct (H1 eq_refl)); destruct r as [|[] ?]; reflexivity. Qed.
  Lemma key_none d : d <> EvMappingEnd -> is_node d = false -> gstep (GDoc ds (FKey :: r)) d = None.
  Proof. intros H1 H2. destruct d; try discriminate H2; try (destruct (H1 eq_refl)); destruct r as [|[] ?]; reflexivity. Qed.
  Lemma val_none d : is_node d = false -> gstep (GDoc ds (FVal :: r)) d = None.
  Proof. intros H2. destruct d; try discriminate H2; destruct r as [|[] ?]; reflexivity. Qed.
  Lemma check_simple_spec s1 : kept s s1 -> wp (check_simple_key e an) (fun _ s' => s' = s1) (fun _ _ => False) (fun _ => False) s1.
  Proof.
    intros K. unfold check_simple_key. apply wp_bind, wp_get. cbv zeta. destruct M as (_ & M2 & _).
    destruct (e_data e); try (apply wp_ret; reflexivity). rewrite M2. apply wp_ret. reflexivity.
  Qed.
  Ltac qv H := eapply wp_seq; [apply V_posts; [solve [vs]|exact H]| |left; assumption|contradiction].
  Ltac done_by K := eapply after_step; [reflexivity|exact I|exact Hs|eassumption|solve [eauto using seq_none, key_none, val_none]|eassumption| |exact (matches_kept _ _ _ _ K M)|exact K].
  Lemma flow_seq_spec (first : bool) : length ins = (if first then colls r else S (colls r)) ->
    wp (emit_flow_sequence_item e first an) (fun _ s' => step_ok (GDoc ds (FSeq :: r)) e s s') (fun x _ => step_err (GDoc ds (FSeq :: r)) e x) (fun _ => False) s.
  Proof.
    intros Hl. unfold emit_flow_sequence_item. apply wp_bind.
    eapply wp_conseq; [exact (open_flow_spec first [cLBRK] s st sts ins tds (colls r) L E Hl)| |left; assumption|auto].
    intros _ s1 (ins1 & Hl1 & L1 & K1 & E1).
    assert (W : e_data e <> EvSequenceEnd -> wp (when (negb first) (write_indicator [cCOMMA] false false false);; wrap_line;; push_estate EFlowSequenceItem;; emit_node e false true false false an)
               (fun _ s' => step_ok (GDoc ds (FSeq :: r)) e s s') (fun x _ => step_err (GDoc ds (FSeq :: r)) e x) (fun _ => False) s1).
    { intros Hne. qv L1. intros _ s2 (L2 & K2 & E2). qv L2. intros _ s3 (L3 & K3 & E3).
      assert (K : kept s s3) by (eapply kept_trans; [exact K1|eapply kept_trans; eassumption]).
      done_by K. rewrite E3, E2. exact E1. }
    destruct (e_data e) eqn:Ed; try (apply W; discriminate).
    destruct ins1 as [|i ins1]; [discriminate Hl1|]. destruct (stack_pop r sts Hs Hr) as (x & l & El). rewrite El in E1.
    eapply wp_conseq; [eapply close_flow_spec; [exact L1|exact E1]| |left; assumption|auto]. cbn beta. intros ? s2 P.
    eapply (closed_by FSeq EvSequenceEnd); [reflexivity|exact Ed|exact I|exact I|intros []| |]; [rewrite El; cbn [hd tl]; eapply posts_trans; [|exact P]|]; [split; [exact L1|split; [exact K1|reflexivity]]|].
    cbn in Hl1. congruence.
  Qed.
  Lemma flow_key_spec (first : bool) : length ins = (if first then colls r else S (colls r)) ->
    wp (emit_flow_mapping_key e first an) (fun _ s' => step_ok (GDoc ds (FKey :: r)) e s s') (fun x _ => step_err (GDoc ds (FKey :: r)) e x) (fun _ => False) s.
  Proof.
    intros Hl. unfold emit_flow_mapping_key. apply wp_bind.
    eapply wp_conseq; [exact (open_flow_spec first [cLBRC] s st sts ins tds (colls r) L E Hl)| |left; assumption|auto].
    intros _ s1 (ins1 & Hl1 & L1 & K1 & E1).
    assert (W : e_data e <> EvMappingEnd -> wp (when (negb first) (write_indicator [cCOMMA] false false false);; wrap_line;; 
      s <- get ;;
      simple <- (if em_canonical s then ret false else check_simple_key e an) ;;
      if simple : bool then
        push_estate EFlowMappingSimpleValue ;;
        emit_node e false false true true an
      else
        write_indicator [cQM] true false false ;;
        push_estate EFlowMappingValue ;;
        emit_node e false false true false an)
               (fun _ s' => step_ok (GDoc ds (FKey :: r)) e s s') (fun x _ => step_err (GDoc ds (FKey :: r)) e x) (fun _ => False) s1).
    { intros Hne. qv L1. intros _ s2 (L2 & K2 & E2). qv L2. intros _ s3 (L3 & K3 & E3).
      assert (K : kept s s3) by (eapply kept_trans; [exact K1|eapply kept_trans; eassumption]).
      apply wp_bind, wp_get. eapply (wp_seq _ _ (fun _ s' => s' = s3) (fun _ _ => False) (fun _ => False)).
      { destruct (em_canonical s3); [apply wp_ret; reflexivity|]. apply check_simple_spec, K. }
      2:contradiction. 2:contradiction.
      intros [|] s' ->.
      - done_by K. rewrite E3, E2. exact E1.
      - qv L3. intros _ s4 (L4 & K4 & E4). pose proof (kept_trans _ _ _ K K4) as K'. done_by K'. rewrite E4, E3, E2. exact E1. }
    destruct (e_data e) eqn:Ed; try (apply W; discriminate).
    destruct ins1 as [|i ins1]; [discriminate Hl1|]. destruct (stack_pop r sts Hs Hr) as (x & l & El). rewrite El in E1.
    eapply wp_conseq; [eapply close_flow_spec; [exact L1|exact E1]| |left; assumption|auto]. cbn beta. intros ? s2 P.
    eapply (closed_by FKey EvMappingEnd); [reflexivity|exact Ed|exact I|exact I|intros []| |]; [rewrite El; cbn [hd tl]; eapply posts_trans; [|exact P]|]; [split; [exact L1|split; [exact K1|reflexivity]]|].
    cbn in Hl1. congruence.
  Qed.
  Lemma flow_value_spec (simple : bool) : length ins = S (colls r) ->
    wp (emit_flow_mapping_value e simple an) (fun _ s' => step_ok (GDoc ds (FVal :: r)) e s s') (fun x _ => step_err (GDoc ds (FVal :: r)) e x) (fun _ => False) s.
  Proof.
    intros Hl. unfold emit_flow_mapping_value. qv L. intros _ s1 (L1 & K1 & E1). done_by K1. rewrite E1. exact E.
  Qed.
  Lemma block_value_spec (simple : bool) : length ins = S (colls r) ->
    wp (emit_block_mapping_value e simple an) (fun _ s' => step_ok (GDoc ds (FVal :: r)) e s s') (fun x _ => step_err (GDoc ds (FVal :: r)) e x) (fun _ => False) s.
  Proof.
    intros Hl. unfold emit_block_mapping_value. qv L. intros _ s1 (L1 & K1 & E1). done_by K1. rewrite E1. exact E.
  Qed.
  Lemma open_block_spec (first b : bool) : length ins = (if first then colls r else S (colls r)) ->
    wp (when first (increase_indent false b))
      (fun _ s' => exists ins', length ins' = S (colls r) /\ posts s (st, sts, ins', tds) s') (fun x _ => io_error x) (fun _ => False) s.
  Proof.
    intros Hl. destruct first; cbn [when].
    - eapply wp_conseq; [eapply increase_indent_spec; [exact L|exact E]| |auto|auto]. intros _ s2 (i & P). exists (i :: ins). split; [cbn; congruence|exact P].
    - apply wp_ret. exists ins. split; [exact Hl|]. split; [exact L|]. split; [apply kept_refl|exact E].
  Qed.
  Lemma close_block_spec s1 x l i ins1 : live s1 -> stacks s1 = (st, x :: l, i :: ins1, tds) ->
    wp (pop_indent ;; pop_estate) (fun _ s' => posts s1 (x, l, ins1, tds) s') (fun x _ => io_error x) (fun _ => False) s1.
  Proof.
    intros L1 E1. eapply wp_seq; [eapply pop_indent_spec; [exact L1|exact E1]| |auto|contradiction]. intros _ s2 (L2 & K2 & E2).
    eapply wp_conseq; [eapply pop_estate_spec; [exact L2|exact E2]| |auto|auto]. intros ? s3 (L3 & K3 & E3). split; [exact L3|]. split; [eapply kept_trans; eassumption|exact E3].
  Qed.
  Lemma block_seq_spec (first : bool) : length ins = (if first then colls r else S (colls r)) ->
    wp (emit_block_sequence_item e first an) (fun _ s' => step_ok (GDoc ds (FSeq :: r)) e s s') (fun x _ => step_err (GDoc ds (FSeq :: r)) e x) (fun _ => False) s.
  Proof.
    intros Hl. unfold emit_block_sequence_item. apply wp_bind, wp_get. apply wp_bind.
    eapply wp_conseq; [exact (open_block_spec first (em_mapping_context s && negb (em_indention s)) Hl)| |left; assumption|auto].
    intros _ s1 (ins1 & Hl1 & L1 & K1 & E1).
    assert (W : e_data e <> EvSequenceEnd -> wp (write_indent ;; write_indicator [cMINUS] true false true ;; push_estate EBlockSequenceItem ;; emit_node e false true false false an)
               (fun _ s' => step_ok (GDoc ds (FSeq :: r)) e s s') (fun x _ => step_err (GDoc ds (FSeq :: r)) e x) (fun _ => False) s1).
    { intros Hne. qv L1. intros _ s2 (L2 & K2 & E2). qv L2. intros _ s3 (L3 & K3 & E3).
      assert (K : kept s s3) by (eapply kept_trans; [exact K1|eapply kept_trans; eassumption]).
      done_by K. rewrite E3, E2. exact E1. }
    destruct (e_data e) eqn:Ed; try (apply W; discriminate).
    destruct ins1 as [|i ins1]; [discriminate Hl1|]. destruct (stack_pop r sts Hs Hr) as (x & l & El). rewrite El in E1.
    eapply wp_conseq; [eapply close_block_spec; [exact L1|exact E1]| |left; assumption|auto]. cbn beta. intros ? s2 P.
    eapply (closed_by FSeq EvSequenceEnd); [reflexivity|exact Ed|exact I|exact I|intros []| |]; [rewrite El; cbn [hd tl]; eapply posts_trans; [|exact P]|]; [split; [exact L1|split; [exact K1|reflexivity]]|].
    cbn in Hl1. congruence.
  Qed.
  Lemma block_key_spec (first : bool) : length ins = (if first then colls r else S (colls r)) ->
    wp (emit_block_mapping_key e first an) (fun _ s' => step_ok (GDoc ds (FKey :: r)) e s s') (fun x _ => step_err (GDoc ds (FKey :: r)) e x) (fun _ => False) s.
  Proof.
    intros Hl. unfold emit_block_mapping_key. apply wp_bind.
    eapply wp_conseq; [exact (open_block_spec first false Hl)| |left; assumption|auto].
    intros _ s1 (ins1 & Hl1 & L1 & K1 & E1).
    assert (W : e_data e <> EvMappingEnd -> wp (write_indent ;;
      simple <- check_simple_key e an ;;
      if simple : bool then
        push_estate EBlockMappingSimpleValue ;;
        emit_node e false false true true an
      else
        write_indicator [cQM] true false true ;;
        push_estate EBlockMappingValue ;;
        emit_node e false false true false an)
               (fun _ s' => step_ok (GDoc ds (FKey :: r)) e s s') (fun x _ => step_err (GDoc ds (FKey :: r)) e x) (fun _ => False) s1).
    { intros Hne. qv L1. intros _ s3 (L3 & K3 & E3).
      assert (K : kept s s3) by (eapply kept_trans; eassumption).
      eapply (wp_seq _ _ (fun _ s' => s' = s3) (fun _ _ => False) (fun _ => False)); [apply check_simple_spec, K| |contradiction|contradiction].
      intros [|] s' ->.
      - done_by K. rewrite E3. exact E1.
      - qv L3. intros _ s4 (L4 & K4 & E4). pose proof (kept_trans _ _ _ K K4) as K'. done_by K'. rewrite E4, E3. exact E1. }
    destruct (e_data e) eqn:Ed; try (apply W; discriminate).
    destruct ins1 as [|i ins1]; [discriminate Hl1|]. destruct (stack_pop r sts Hs Hr) as (x & l & El). rewrite El in E1.
    eapply wp_conseq; [eapply close_block_spec; [exact L1|exact E1]| |left; assumption|auto]. cbn beta. intros ? s2 P.
    eapply (closed_by FKey EvMappingEnd); [reflexivity|exact Ed|exact I|exact I|intros []| |]; [rewrite El; cbn [hd tl]; eapply posts_trans; [|exact P]|]; [split; [exact L1|split; [exact K1|reflexivity]]|].
    cbn in Hl1. congruence.
  Qed.
End collections.

(** ** Directives *)
From Verif Require ScanFacts.
Lemma version_spec v s : wp (analyze_version_directive v) (fun _ s' => s' = s /\ valid_version v) (fun x _ => refuses x /\ ~ valid_version v) (fun _ => False) s.
Proof.
  unfold analyze_version_directive, valid_version. destruct (_ || _) eqn:E.
  - split; [eexists; reflexivity|]. lia.
  - split; [reflexivity|]. lia.
Qed.
Lemma str_len_cons c (l : str) : str_len (c :: l) = len_utf8 c + str_len l. Proof. reflexivity. Qed.
Lemma str_len_app (a b : str) : str_len (a ++ b) = str_len a + str_len b.
Proof. induction a as [|c a IH]; [reflexivity|]. cbn [app]. rewrite !str_len_cons, IH. lia. Qed.
Lemma len_utf8_pos c : 1 <= len_utf8 c.
Proof. unfold len_utf8. repeat destruct (_ <? _); lia. Qed.
Lemma last_app1 {A} (l : list A) x : last_opt (l ++ [x]) = Some x.
Proof. induction l as [|y l IH]; [reflexivity|]. cbn [app last_opt]. destruct (l ++ [x]) eqn:E; [destruct l; discriminate E|exact IH]. Qed.
Lemma handle_spec (h : str) : (is_empty h = false /\ starts_with cBANG h = true /\ ends_with cBANG h = true /\ ((2 <? str_len h) && negb (forallb is_alpha_c (removelast (tl h)))) = false) <-> valid_handle h.
Proof.
  unfold valid_handle, starts_with, ends_with. split.
  - intros (H1 & H2 & H3 & H4). destruct h as [|c h]; [discriminate|]. apply N.eqb_eq in H2. subst c.
    destruct h as [|d h] using rev_ind; [left; reflexivity|]. right. clear IHh.
    rewrite app_comm_cons, last_app1 in H3. apply N.eqb_eq in H3. subst d.
    exists h. split; [reflexivity|]. cbn [tl] in H4. rewrite removelast_last in H4.
    destruct h as [|c h]; [constructor|]. apply alpha_names.
    assert (2 <? str_len (cBANG :: (c :: h) ++ [cBANG]) = true) as Hl.
    { rewrite str_len_cons, str_len_app, !str_len_cons. pose proof (len_utf8_pos c). change (len_utf8 cBANG) with 1. lia. }
    unfold char in *. rewrite Hl in H4. cbn [andb] in H4. apply negb_false_iff in H4. exact H4.
  - intros [->|(w & -> & Hw)]; [repeat split; reflexivity|]. change (lit "!") with [cBANG]. cbn [app is_empty]. split; [reflexivity|].
    split; [reflexivity|]. rewrite app_comm_cons, last_app1. split; [reflexivity|]. cbn [app tl]. rewrite removelast_last.
    apply alpha_names in Hw. rewrite Hw. apply andb_false_r.
Qed.
Lemma directive_spec t s : wp (analyze_tag_directive t) (fun _ s' => s' = s /\ valid_directive t) (fun x _ => refuses x /\ ~ valid_directive t) (fun _ => False) s.
Proof.
  unfold analyze_tag_directive, valid_directive. cbv zeta. pose proof (handle_spec (td_handle t)) as H.
  destruct (is_empty (td_handle t)); [split; [eexists; reflexivity|]; intros [Hv _]; apply H in Hv; destruct Hv; discriminate|].
  destruct (starts_with cBANG (td_handle t)); cbn [negb]; [|split; [eexists; reflexivity|]; intros [Hv _]; apply H in Hv; destruct Hv as (_ & Hv & _); discriminate].
  destruct (ends_with cBANG (td_handle t)); cbn [negb]; [|split; [eexists; reflexivity|]; intros [Hv _]; apply H in Hv; destruct Hv as (_ & _ & Hv & _); discriminate].
  destruct ((2 <? str_len (td_handle t)) && negb (forallb is_alpha_c (removelast (tl (td_handle t))))) eqn:E1; [split; [eexists; reflexivity|]; intros [Hv _]; apply H in Hv; destruct Hv as (_ & _ & _ & Hv); discriminate|].
  destruct (is_empty (td_prefix t)) eqn:E2.
  - split; [eexists; reflexivity|]. intros [_ Hp]. apply Hp, is_empty_true, E2.
  - split; [reflexivity|]. split; [apply H; auto|apply is_empty_false, E2].
Qed.
Lemma existsb_handle (t : tag_directive) l : existsb (fun u => str_eqb (td_handle t) (td_handle u)) l = true <-> In (td_handle t) (map td_handle l).
Proof.
  rewrite existsb_exists, in_map_iff. split.
  - intros (u & Hu & He). apply ScanFacts.str_eqb_eq in He. exists u. auto.
  - intros (u & He & Hu). exists u. split; [exact Hu|]. apply ScanFacts.str_eqb_eq. auto.
Qed.
Definition tds_post (s : est) (l : list tag_directive) (s' : est) : Prop :=
  live s' /\ kept s s' /\ em_state s' = em_state s /\ em_states s' = em_states s /\ em_indents s' = em_indents s /\ em_tag_directives s' = l.
Lemma append_spec t b s : live s ->
  wp (em_append_tag_directive t b) (fun _ s' => exists l, tds_post s l s' /\ (b = false -> ~ In (td_handle t) (map td_handle (em_tag_directives s)) /\ l = em_tag_directives s ++ [t]))
   (fun x _ => refuses x /\ b = false /\ In (td_handle t) (map td_handle (em_tag_directives s))) (fun _ => False) s.
Proof.
  intros L. unfold em_append_tag_directive. apply wp_bind, wp_get.
  destruct (existsb (fun t0 => str_eqb (td_handle t) (td_handle t0)) (em_tag_directives s)) eqn:E.
  - apply existsb_handle in E. destruct b.
    + apply wp_ret. exists (em_tag_directives s). split; [|discriminate]. split; [exact L|]. split; [apply kept_refl|]. auto.
    + split; [eexists; reflexivity|]. auto.
  - apply wp_modify. exists (em_tag_directives s ++ [t]). split.
    + split; [exact L|]. split; [constructor; reflexivity|]. auto.
    + intros _. split; [|reflexivity]. intros H. apply existsb_handle in H. congruence.
Qed.
Lemma tds_trans a b c l m : tds_post a l b -> tds_post b m c -> tds_post a m c.
Proof. intros (L1 & K1 & A1 & A2 & A3 & A4) (L2 & K2 & B1 & B2 & B3 & B4). split; [exact L2|]. split; [eapply kept_trans; eassumption|]. repeat split; congruence. Qed.
Lemma tds_refl s : live s -> tds_post s (em_tag_directives s) s.
Proof. intros L. split; [exact L|]. split; [apply kept_refl|]. auto. Qed.
Lemma directives_spec tds : forall s, live s -> NoDup (map td_handle (em_tag_directives s)) ->
  wp (iterM (fun t => analyze_tag_directive t ;; em_append_tag_directive t false) tds)
    (fun _ s' => (exists l, tds_post s l s') /\ Forall valid_directive tds /\ NoDup (map td_handle (em_tag_directives s ++ tds)))
    (fun x _ => refuses x /\ ~ (Forall valid_directive tds /\ NoDup (map td_handle (em_tag_directives s ++ tds)))) (fun _ => False) s.
Proof.
  induction tds as [|t tds IH]; intros s L Hn; cbn [iterM].
  - apply wp_ret. rewrite app_nil_r. split; [exists (em_tag_directives s); apply tds_refl, L|]. auto.
  - apply wp_bind, wp_bind. eapply wp_conseq; [apply directive_spec| | |auto].
    2:{ cbn beta. intros x s' [H1 H2]. split; [exact H1|]. intros [H _]. inversion H; contradiction. }
    intros _ s1 [-> Hv]. eapply wp_conseq; [apply append_spec, L| | |auto].
    2:{ cbn beta. intros x s' (H1 & _ & H2). split; [exact H1|]. intros [_ H]. rewrite map_app in H. cbn [map] in H.
        apply NoDup_remove_2 in H. apply H, in_or_app. left. exact H2. }
    intros _ s2 (l & P & Hl). destruct (Hl eq_refl) as [Hi ->]. pose proof P as (L2 & K2 & A1 & A2 & A3 & A4).
    assert (N2 : NoDup (map td_handle (em_tag_directives s2))).
    { rewrite A4, map_app. cbn [map]. apply (NoDup_Add (a := td_handle t) (l := map td_handle (em_tag_directives s))); [|split; assumption].
      rewrite <- (app_nil_r (map td_handle (em_tag_directives s))) at 1. apply Add_app. }
    eapply wp_conseq; [apply IH; [exact L2|exact N2]| | |auto].
    + cbn beta. rewrite A4, <- app_assoc. intros _ s3 ((l & P3) & F & Nd). split; [exists l; eapply tds_trans; eassumption|]. split; [constructor; assumption|exact Nd].
    + cbn beta. rewrite A4, <- app_assoc. intros x s3 [H1 H2]. split; [exact H1|]. intros [Hf Hd]. apply H2. split; [inversion Hf; assumption|exact Hd].
Qed.
Lemma default_spec tds : forall s, live s -> 
  wp (iterM (fun t => em_append_tag_directive t true) tds) (fun _ s' => exists l, tds_post s l s') (fun _ _ => False) (fun _ => False) s.
Proof.
  induction tds as [|t tds IH]; intros s L; cbn [iterM].
  - apply wp_ret. exists (em_tag_directives s). apply tds_refl, L.
  - eapply wp_seq; [apply append_spec, L| |cbn beta; intros x s' (_ & H & _); discriminate|auto]. intros _ s1 (l & P & _). pose proof P as (L1 & _).
    eapply wp_conseq; [apply IH, L1| |auto|auto]. intros _ s2 (l2 & P2). exists l2. eapply tds_trans; eassumption.
Qed.

(** ** Flushing empties the buffer *)
Lemma flush_empties s : live s -> wp flush (fun _ s' => (live s' /\ ctl s' = ctl s) /\ em_buffer s' = []) (fun x _ => io_error x) (fun _ => False) s.
Proof.
  intros L. eapply wp_conseq; [apply wp_and; [apply V_flush, L|]| | |]; cbn beta.
  - instantiate (1 := fun _ => True). instantiate (1 := fun _ _ => True). instantiate (1 := fun _ s' => em_buffer s' = []).
    destruct L as (L1 & L2 & L3). unfold flush. apply wp_bind, wp_get. destruct (em_writer s) as [w|] eqn:Ew; [|destruct (L1 eq_refl)].
    destruct (encoding_eqb (em_encoding s) EncAny); [exact I|]. destruct (is_empty (em_buffer s)) eqn:Eb; [apply wp_ret, is_empty_true, Eb|].
    destruct (encoding_eqb (em_encoding s) Utf8).
    + apply wp_bind. unfold wp at 1, write_all_m. rewrite Ew. destruct (write_all _ w) as [[x|] w']; [exact I|]. apply wp_modify. reflexivity.
    + apply wp_bind, wp_modify. apply wp_bind, wp_get. apply wp_bind. unfold wp at 1, write_all_m. cbn [em_writer set_em_raw em_raw]. rewrite Ew. destruct (write_all _ w) as [[x|] w']; [exact I|]. apply wp_modify. reflexivity.
  - auto.
  - intros x s' [H _]. exact H.
  - intros p [H _]. exact H.
Qed.

(** ** Documents *)
Lemma docs_none d : match d with EvDocumentStart _ _ _ | EvStreamEnd => False | _ => True end -> gstep GDocs d = None.
Proof. destruct d; intros H; try contradiction; reflexivity. Qed.
Lemma V_then (m k : M est unit) Q g e s : live s -> V m -> (forall s', live s' -> ctl s' = ctl s -> wp k Q (fun x _ => step_err g e x) (fun _ => False) s') ->
  wp (m ;; k) Q (fun x _ => step_err g e x) (fun _ => False) s.
Proof. intros L Vm H. eapply wp_seq; [apply Vm, L| |left; assumption|contradiction]. intros _ s1 [L1 C1]. apply H; assumption. Qed.
Lemma doc_start_spec e (first : bool) s : live s -> em_states s = [] -> em_indents s = [] -> em_tag_directives s = [] ->
  wp (emit_document_start e first) (fun _ s' => step_ok GDocs e s s') (fun x _ => step_err GDocs e x) (fun _ => False) s.
Proof.
  intros L Hs Hi Ht. unfold emit_document_start.
  destruct (e_data e) as [en| |vd tds i|i|an0|an0 t v pi qi sty|an0 t i sty| |an0 t i sty|] eqn:Ed;
    try (apply wp_fail; right; split; [eexists; reflexivity|]; left; rewrite Ed; reflexivity).
  - (* STREAM-END *)
    apply wp_bind, wp_get. eapply wp_seq with (E1 := fun x _ => io_error x) (P1 := fun _ => False) (Q1 := fun _ s' => live s' /\ ctl s' = ctl s); [|
      |left; assumption|contradiction]. { refine ((_ : V _) s L). vs. }
    intros _ s1 [L1 C1]. eapply wp_seq; [apply flush_empties, L1| |left; assumption|contradiction].
    intros _ s2 [[L2 C2] B2]. unfold goto_estate. apply wp_modify. unfold step_ok. rewrite Ed. exists GEnd. split; [reflexivity|].
    split; [split; [exact L2|reflexivity]|]. assert (K : kept s s2) by (apply kept_ctl; congruence). split; [destruct K; constructor; assumption|].
    split; [exact I|]. split; [exact I|]. intros _. exact B2.
  - (* DOCUMENT-START *)
    apply wp_bind. eapply wp_conseq with (Q := fun _ s' => s' = s /\ all valid_version vd) (E := fun x _ => refuses x /\ ~ all valid_version vd) (P := fun _ => False).
    { destruct vd as [v|]; [apply version_spec|apply wp_ret; split; [reflexivity|exact I]]. }
    2:{ cbn beta. intros x s' [H1 H2]. right. split; [exact H1|]. right. left. rewrite Ed. cbn [valid_directives]. tauto. } 2:contradiction.
    intros _ s0 [-> Hv]. assert (Hn : NoDup (map td_handle (em_tag_directives s))) by (rewrite Ht; constructor).
    apply wp_bind. eapply wp_conseq; [apply directives_spec; [exact L|exact Hn]| | |contradiction]; rewrite Ht; cbn [app].
    2:{ intros x s' [H1 H2]. right. split; [exact H1|]. right. left. rewrite Ed. cbn [valid_directives]. tauto. }
    intros _ s1 ((l1 & P1) & F & Nd). pose proof P1 as (L1 & _).
    apply wp_bind. eapply wp_conseq; [apply default_spec, L1| |contradiction|contradiction]. intros _ s2 (l2 & P2).
    pose proof (tds_trans _ _ _ _ _ P1 P2) as (L2 & K2 & A1 & A2 & A3 & A4). clear P1 P2 s1 L1 l1.
    apply wp_bind, wp_get. cbv zeta.
    assert (Go : forall s3, live s3 -> ctl s3 = ctl s2 -> wp (goto_estate EDocumentContent ;; modify (set_em_open_ended 0%Z)) (fun _ s' => step_ok GDocs e s s') (fun x _ => step_err GDocs e x) (fun _ => False) s3).
    { intros s3 L3 C3. apply wp_bind. unfold goto_estate. apply wp_modify, wp_modify.
      pose proof (kept_trans _ _ _ K2 (kept_ctl _ _ C3)) as K. pose proof (stacks_ctl _ _ C3) as E3. injection E3 as B1 B2 B3 B4.
      unfold step_ok. rewrite Ed. exists (GDoc tds [FRoot]). split; [reflexivity|]. split.
      - split; [exact L3|]. cbn [em_state em_states em_indents set_em_open_ended set_em_state stk]. rewrite B2, B3, A2, A3, Hs, Hi. split; [|constructor].
        left. split; [exact I|reflexivity].
      - split; [destruct K; constructor; assumption|]. split; [split; [exact Hv|split; assumption]|]. split; [exact I|]. intros []. }
    apply (V_then _ _ _ _ _ _ L2); [vs|]. intros s3 L3 C3.
    apply (V_then _ _ _ _ _ _ L3); [vs|]. intros s4 L4 C4.
    apply (V_then _ _ _ _ _ _ L4); [vs|]. intros s5 L5 C5.
    apply (V_then _ _ _ _ _ _ L5); [vs|]. intros s6 L6 C6.
    apply (V_then _ _ _ _ _ _ L6); [vs|]. intros s7 L7 C7.
    apply Go; [exact L7|congruence].
Qed.
Lemma doc_end_spec e ds s : live s -> em_state s = EDocumentEnd -> em_states s = [] -> em_indents s = [] ->
  wp (emit_document_end e) (fun _ s' => step_ok (GDoc ds [FDone]) e s s') (fun x _ => step_err (GDoc ds [FDone]) e x) (fun _ => False) s.
Proof.
  intros L Hst Hs Hi. unfold emit_document_end.
  destruct (e_data e) as [en| |vd tds i|i|an0|an0 t v pi qi sty|an0 t i sty| |an0 t i sty|] eqn:Ed;
    try (apply wp_fail; right; split; [eexists; reflexivity|]; left; rewrite Ed; reflexivity).
  eapply wp_seq; [apply V_write_indent, L| |left; assumption|contradiction]. intros _ s1 [L1 C1]. apply wp_bind, wp_get.
  eapply wp_seq with (E1 := fun x _ => io_error x) (P1 := fun _ => False) (Q1 := fun _ s' => live s' /\ ctl s' = ctl s1); [|
      |left; assumption|contradiction]. { refine ((_ : V _) s1 L1). vs. }
  intros _ s2 [L2 C2]. eapply wp_seq; [apply flush_empties, L2| |left; assumption|contradiction].
  intros _ s3 [[L3 C3] B3]. unfold goto_estate. apply wp_bind, wp_modify, wp_modify.
  assert (C : ctl s3 = ctl s) by congruence. pose proof (kept_ctl _ _ C) as K. pose proof (stacks_ctl _ _ C) as E. injection E as E1 E2 E3 E4.
  unfold step_ok. rewrite Ed. exists GDocs. split; [reflexivity|]. split.
  - split; [exact L3|]. cbn. split; [auto|]. split; congruence.
  - split; [destruct K; constructor; assumption|]. split; [exact I|]. split; [exact I|]. intros _. exact B3.
Qed.
Lemma doc_content_spec e an ds s : live s -> em_states s = [] -> em_indents s = [] -> matches s e an ->
  wp (emit_document_content e an) (fun _ s' => step_ok (GDoc ds [FRoot]) e s s') (fun x _ => step_err (GDoc ds [FRoot]) e x) (fun _ => False) s.
Proof.
  intros L Hs Hi M. unfold emit_document_content.
  eapply (after_step e ds [FRoot] FDone [] EDocumentEnd [] []); [reflexivity|exact I|constructor|reflexivity| |exact L| |exact M|apply kept_refl].
  - destruct (e_data e); intros H; try discriminate H; reflexivity.
  - unfold stacks. rewrite Hs, Hi. reflexivity.
Qed.
Lemma normalised_live en s : em_writer s <> None -> live (normalise_settings en s).
Proof.
  intros Hw. destruct s as [wr bf rw ec ca bi bw un lb sts st evs inds tds ind fl rc sc mc sk li co ws io oe op cl ans lid]. cbn in Hw. unfold normalise_settings. cbv zeta. cbn [em_encoding].
  split; [|split].
  - destruct ec, en; cbn [encoding_eqb em_encoding set_em_encoding]; repeat match goal with |- context [if ?b then _ else _] => destruct b end; destruct lb; exact Hw.
  - destruct ec, en; cbn [encoding_eqb em_encoding set_em_encoding]; repeat match goal with |- context [if ?b then _ else _] => destruct b end; destruct lb; discriminate.
  - destruct ec, en; cbn [encoding_eqb em_encoding em_best_indent set_em_encoding];
    (destruct ((bi <? 2) || (9 <? bi))%Z eqn:E; repeat match goal with |- context [if ?b then _ else _] => destruct b end; destruct lb; cbn; lia).
Qed.
Lemma normalised_kept en s : kept s (normalise_settings en s) /\ em_states (normalise_settings en s) = em_states s /\ em_indents (normalise_settings en s) = em_indents s.
Proof.
  destruct s as [wr bf rw ec ca bi bw un lb sts st evs inds tds ind fl rc sc mc sk li co ws io oe op cl ans lid]. unfold normalise_settings. cbv zeta. 
  destruct ec, en; cbn [encoding_eqb em_encoding set_em_encoding]; repeat match goal with |- context [if ?b then _ else _] => destruct b end; destruct lb; repeat split.
Qed.
Lemma stream_start_spec e s : em_writer s <> None -> em_states s = [] -> em_indents s = [] ->
  wp (emit_stream_start e) (fun _ s' => step_ok GStart e s s') (fun x _ => step_err GStart e x) (fun _ => False) s.
Proof.
  intros Hw Hs Hi. unfold emit_stream_start. apply wp_bind, wp_modify.
  destruct (e_data e) as [en| |vd tds i|i|an0|an0 t v pi qi sty|an0 t i sty| |an0 t i sty|] eqn:Ed;
    try (apply wp_fail; right; split; [eexists; reflexivity|]; left; rewrite Ed; reflexivity).
  apply wp_bind, wp_modify. set (s0 := set_em_open_ended 0%Z s). assert (Hw0 : em_writer s0 <> None) by exact Hw.
  pose proof (normalised_live en s0 Hw0) as L. destruct (normalised_kept en s0) as (K & N1 & N2).
  revert L K N1 N2. generalize (normalise_settings en s0). intros s1 L K N1 N2. apply wp_bind, wp_get.
  eapply wp_seq; [apply V_posts; [apply V_when, V_write_bom|exact L]| |left; assumption|contradiction]. intros _ s2 (L2 & K2 & E2).
  unfold goto_estate. apply wp_modify. injection E2 as B1 B2 B3 B4. unfold step_ok. rewrite Ed. exists GDocs. split; [reflexivity|]. split.
  - split; [exact L2|]. cbn. split; [auto|]. rewrite B2, B3, N1, N2. split; assumption.
  - split; [destruct K, K2; constructor; cbn in *; congruence|]. split; [exact I|]. split; [exact I|]. intros [].
Qed.

(** ** The state machine *)
Lemma machine_spec g e an s : g_ok g -> GI g s -> matches s e an -> em_tag_directives s = [] ->
  wp (em_state_machine e an) (fun _ s' => step_ok g e s s') (fun x _ => step_err g e x) (fun _ => False) s.
Proof.
  intros Hg HI M Ht. unfold em_state_machine. apply wp_bind, wp_get.
  destruct g as [| |ds fs|]; cbn [GI] in HI.
  - destruct HI as (Hw & -> & H1 & H2). apply stream_start_spec; assumption.
  - destruct HI as (L & Hst & H1 & H2). destruct Hst as [-> | ->]; apply doc_start_spec; assumption.
  - destruct HI as (L & Hk). destruct fs as [|f r]; [contradiction|]. destruct Hk as [Hk Hs].
    cbn [g_ok] in Hg.
    assert (E : stacks s = (em_state s, em_states s, em_indents s, em_tag_directives s)) by reflexivity.
    assert (Hr : match f with FSeq | FKey | FVal => stack_ok r | _ => r = [] end).
    { destruct f; cbn [stack_ok] in Hg; try tauto. destruct r; [reflexivity|contradiction]. }
    destruct Hk as [[Hc Hn]|[Hc Hn]]; unfold colls in Hn; cbn [map list_sum fold_right coll] in Hn; fold (colls r) in Hn; destruct f; cbn [cont starting] in Hc; 
      destruct (em_state s) eqn:Est; try contradiction Hc.
    + subst r. inversion Hs. apply doc_content_spec; auto. destruct (em_indents s); [reflexivity|discriminate Hn].
    + subst r. inversion Hs. apply doc_end_spec; auto. destruct (em_indents s); [reflexivity|discriminate Hn].
    + exact (flow_seq_spec ds e an r s _ _ _ _ Hr L E Hs M false Hn).
    + exact (block_seq_spec ds e an r s _ _ _ _ Hr L E Hs M false Hn).
    + exact (flow_key_spec ds e an r s _ _ _ _ Hr L E Hs M false Hn).
    + exact (block_key_spec ds e an r s _ _ _ _ Hr L E Hs M false Hn).
    + exact (flow_value_spec ds e an r s _ _ _ _ Hr L E Hs M true Hn).
    + exact (flow_value_spec ds e an r s _ _ _ _ Hr L E Hs M false Hn).
    + exact (block_value_spec ds e an r s _ _ _ _ Hr L E Hs M true Hn).
    + exact (block_value_spec ds e an r s _ _ _ _ Hr L E Hs M false Hn).
    + exact (flow_seq_spec ds e an r s _ _ _ _ Hr L E Hs M true Hn).
    + exact (block_seq_spec ds e an r s _ _ _ _ Hr L E Hs M true Hn).
    + exact (flow_key_spec ds e an r s _ _ _ _ Hr L E Hs M true Hn).
    + exact (block_key_spec ds e an r s _ _ _ _ Hr L E Hs M true Hn).
  - destruct HI as [_ HI]. rewrite HI. apply wp_fail. right. split; [eexists; reflexivity|]. left. reflexivity.
Qed.

(** ** [emit] *)
From Verif Require Import EmitRuns Spec_Emitter EmitSession.
Definition one_err (g : gstate) (c : bool) (e : event) (x : error) : Prop :=
  io_error x \/ refuses x /\ (gstep g (e_data e) = None \/ ~ valid_event c (e_data e)).
Lemma GI_tds g s l : GI g s -> GI g (set_em_tag_directives l s).
Proof. destruct g; exact (fun H => H). Qed.
Lemma GI_events g s l : GI g s -> GI g (set_em_events l s).
Proof. destruct g; exact (fun H => H). Qed.
Lemma emit_one_spec g e s : g_ok g -> GI g s -> ascii_tag (e_data e) ->
  wp (emit_one e) (fun _ s' => step_ok g e s s' /\ valid_event (em_canonical s) (e_data e)) (fun x _ => one_err g (em_canonical s) e x) (fun _ => False) s.
Proof.
  intros Hg HI Ha. unfold emit_one. apply wp_bind, wp_get. cbv zeta. apply wp_bind, wp_modify.
  set (s0 := set_em_tag_directives [] s). assert (HI0 : GI g s0) by apply GI_tds, HI.
  apply wp_bind. eapply wp_conseq; [apply event_spec, Ha| | |contradiction].
  2:{ intros x s1 (_ & H1 & H2). right. split; [exact H1|]. right. intros [H _]. exact (H2 H). }
  intros an s1 [-> M]. apply wp_bind. eapply wp_conseq; [apply (machine_spec g e an s0 Hg HI0 M eq_refl)| | |contradiction].
  2:{ intros x s1 [H|[H1 H2]]; [left; exact H|right]. split; [exact H1|]. destruct H2 as [H2|H2]; [left; exact H2|right]. unfold valid_event. tauto. }
  cbn beta. intros _ s1 (g' & G & HI1 & K & Vd & Vf & Hb). apply wp_modify. split.
  - exists g'. split; [exact G|]. destruct (is_empty (em_tag_directives s1)).
    + split; [apply GI_tds, HI1|]. split; [destruct K; constructor; assumption|]. auto.
    + split; [exact HI1|]. split; [destruct K; constructor; assumption|]. auto.
  - split; [apply M|]. auto.
Qed.

Definition data (l : list event) : list event_data := map e_data l.
Definition closing_last (l : list event) : Prop := match last_opt l with Some e => closes (e_data e) | None => False end.
(** What is known of the events taken from the queue. *)
Record taken (c : bool) (g : gstate) (s : est) (l : list event) (g' : gstate) (s' : est) : Prop := {
  tk_run : grun g (data l) = Some g';
  tk_inv : GI g' s';
  tk_valid : Forall (fun e => valid_event c (e_data e)) l;
  tk_canonical : em_canonical s' = em_canonical s;
  tk_buffer : closing_last l -> em_buffer s' = [] }.
Definition bad_at (c : bool) (g : gstate) (q : list event) : Prop := exists l e r g',
  q = l ++ e :: r /\ grun g (data l) = Some g' /\ Forall (fun e => valid_event c (e_data e)) l /\
  (gstep g' (e_data e) = None \/ ~ valid_event c (e_data e)).
Lemma last_opt_cons {A} (x : A) l : l <> [] -> last_opt (x :: l) = last_opt l.
Proof. destruct l; [intros H; destruct (H eq_refl)|reflexivity]. Qed.
Lemma taken_cons c g s e g1 s1 l g' s' : gstep g (e_data e) = Some g1 -> valid_event c (e_data e) -> em_canonical s1 = em_canonical s ->
  (l = [] -> s' = s1 /\ (closes (e_data e) -> em_buffer s1 = [])) -> taken c g1 s1 l g' s' -> taken c g s (e :: l) g' s'.
Proof.
  intros G Ve Hc Hl []. constructor; auto; try congruence.
  - cbn [data map grun]. rewrite G. exact tk_run0.
  - unfold closing_last in *. destruct l as [|x l].
    + cbn [last_opt]. destruct (Hl eq_refl) as [-> H]. exact H.
    + rewrite last_opt_cons by discriminate. exact tk_buffer0.
Qed.
Lemma taken_nil c g s : GI g s -> taken c g s [] g s.
Proof. intros H. constructor; auto. intros []. Qed.
Lemma loop_spec c n : forall g s, (length (em_events s) < n)%nat -> g_ok g -> GI g s -> em_canonical s = c -> Forall (fun e => ascii_tag (e_data e)) (em_events s) ->
  wp (emit_loop n) (fun _ s' => exists l g', em_events s = l ++ em_events s' /\ ready (em_events s') = false /\ taken c g s l g' s' /\ (l = [] -> s' = s))
     (fun x _ => io_error x \/ refuses x /\ bad_at c g (em_events s)) (fun _ => False) s.
Proof.
  induction n as [|n IH]; intros g s Hn Hg HI Hc Ha; [lia|]. unfold wp. rewrite emit_loop_step.
  destruct (em_events s) as [|e r] eqn:Ee.
  { exists [], g. rewrite Ee. repeat split; auto; apply (taken_nil c g s HI). }
  destruct (ready (e :: r)) eqn:Er.
  2:{ exists [], g. rewrite Ee. repeat split; auto; apply (taken_nil c g s HI). }
  inversion Ha as [|e0 r0 Ha1 Ha2]; subst e0 r0.
  pose proof (emit_one_spec g e (set_em_events r s) Hg (GI_events g s r HI) Ha1) as W1. rewrite <- Hc in *. change (em_canonical (set_em_events r s)) with (em_canonical s) in W1.
  change (wp (emit_one e ;; emit_loop n) (fun _ s' => exists l g', e :: r = l ++ em_events s' /\ ready (em_events s') = false /\ taken (em_canonical s) g s l g' s' /\ (l = [] -> s' = s)) (fun x _ => io_error x \/ refuses x /\ bad_at (em_canonical s) g (e :: r)) (fun _ => False) (set_em_events r s)).
  eapply wp_seq; [exact W1| | |contradiction].
  2:{ intros x s1 [H|[H1 H2]]; [left; exact H|right]. split; [exact H1|]. exists [], e, r, g. repeat split; auto. }
  cbn beta. intros _ s1 [(g1 & G & HI1 & K & _ & _ & Hb) Ve]. destruct K as [K1 K2 K3]. cbn in K1, K2.
  eapply wp_conseq; [apply (IH g1 s1)| | |auto].
  - rewrite K1. cbn in Hn. lia.
  - exact (gstep_ok _ _ _ Hg G).
  - exact HI1.
  - exact K2.
  - rewrite K1. exact Ha2.
  - cbn beta. intros _ s2 (l & g2 & El & R2 & T & Hl). rewrite K1 in El. exists (e :: l), g2. rewrite El. split; [reflexivity|]. split; [exact R2|].
    split; [|discriminate]. eapply taken_cons; [exact G|exact Ve|exact K2| |exact T]. intros Hnil. split; [apply Hl, Hnil|]. exact Hb.
  - cbn beta. rewrite K1. intros x s2 [H|[H1 (l & e' & r' & g2 & E2 & G2 & V2 & B2)]]; [left; exact H|right]. split; [exact H1|].
    exists (e :: l), e', r', g2. rewrite E2. split; [reflexivity|]. split; [cbn [data map grun]; rewrite G; exact G2|]. split; [constructor; assumption|exact B2].
Qed.

(** ** Sessions *)
(** After a session that has emitted the events [es], from the state [g0] of the grammar. *)
Definition so_far (c : bool) (g0 : gstate) (es : list event) (s : est) : Prop := exists l g,
  es = l ++ em_events s /\ ready (em_events s) = false /\ grun g0 (data l) = Some g /\ GI g s /\ g_ok g /\
  Forall (fun e => valid_event c (e_data e)) l /\ em_canonical s = c /\ (closing_last l -> em_buffer s = []).
Lemma last_opt_app2 {A} (a b : list A) : b <> [] -> last_opt (a ++ b) = last_opt b.
Proof. intros H. induction a as [|x a IH]; [reflexivity|]. cbn [app]. rewrite last_opt_cons; [exact IH|]. destruct a; [exact H|discriminate]. Qed.
Lemma emit_session_spec c g0 es e s : so_far c g0 es s -> Forall (fun e => ascii_tag (e_data e)) (es ++ [e]) ->
  wp (emit e) (fun _ s' => so_far c g0 (es ++ [e]) s')
    (fun x _ => io_error x \/ refuses x /\ bad_at c g0 (es ++ [e])) (fun _ => False) s.
Proof.
  intros (l & g & El & R & G & HI & Hg & V & Hc & Hb) Ha.
  unfold wp. rewrite emit_eq. unfold enqueue. rewrite b_modify, b_get.
  set (s1 := set_em_events (em_events s ++ [e]) s).
  assert (E1 : em_events s1 = em_events s ++ [e]) by reflexivity.
  assert (Ha1 : Forall (fun e => ascii_tag (e_data e)) (em_events s1)).
  { rewrite E1. rewrite El, <- app_assoc in Ha. apply Forall_app in Ha. apply Ha. }
  pose proof (loop_spec c (S (length (em_events s1))) g s1 (Nat.lt_succ_diag_r _) Hg (GI_events g s _ HI) Hc Ha1) as W.
  unfold wp in W. destruct (emit_loop (S (length (em_events s1))) s1) as [[[]|x|p|] s2]; auto.
  - destruct W as (l2 & g2 & E2 & R2 & [T1 T2 T3 T4 T5] & H0). exists (l ++ l2), g2. rewrite El, <- !app_assoc. rewrite <- E1, E2.
    split; [reflexivity|]. split; [exact R2|]. split; [unfold data in *; rewrite map_app, grun_app, G; exact T1|]. split; [exact T2|].
    split; [eapply grun_ok; [exact Hg|exact T1]|]. split; [apply Forall_app; auto|]. split; [rewrite T4; exact Hc|].
    destruct l2 as [|x2 l2]; [rewrite app_nil_r; rewrite (H0 eq_refl); exact Hb|].
    unfold closing_last in *. rewrite last_opt_app2 by discriminate. exact T5.
  - destruct W as [H|[H1 (l2 & e' & r' & g2 & E2 & G2 & V2 & B2)]]; [left; exact H|right]. split; [exact H1|].
    exists (l ++ l2), e', r', g2. rewrite El, <- !app_assoc, <- E1, E2. split; [reflexivity|]. split; [unfold data in *; rewrite map_app, grun_app, G; exact G2|].
    split; [apply Forall_app; auto|exact B2].
Qed.
Lemma gstep_not_start g d g' : gstep g d = Some g' -> g' <> GStart.
Proof.
  intros H ->. destruct g as [| |ds fs|]; destruct d; try discriminate H; cbn [gstep] in H;
  destruct fs as [|[] [|? ?]]; try discriminate H.
Qed.
Lemma grun_not_start l : forall g g', g <> GStart -> grun g l = Some g' -> g' <> GStart.
Proof.
  induction l as [|d l IH]; intros g g' Hg H; cbn [grun] in H; [congruence|]. destruct (gstep g d) as [g1|] eqn:E; [|discriminate].
  eapply IH; [exact (gstep_not_start _ _ _ E)|exact H].
Qed.
Lemma GI_live g s : g <> GStart -> GI g s -> live s.
Proof. destruct g; intros Hg H; [destruct (Hg eq_refl)|apply H..]. Qed.
Lemma GI_ctl g s s' : GI g s -> live s' -> ctl s' = ctl s -> GI g s'.
Proof.
  intros H L C. pose proof (stacks_ctl _ _ C) as E. injection E as E1 E2 E3 E4. destruct g; cbn [GI] in *; rewrite ?E1, ?E2, ?E3; try tauto.
  split; [apply L|]. tauto.
Qed.
Lemma flush_session_spec c g0 es s : so_far c g0 es s -> g0 <> GStart -> wp flush (fun _ s' => so_far c g0 es s') (fun x _ => io_error x) (fun _ => False) s.
Proof.
  intros (l & g & El & R & G & HI & Hg & V & Hc & Hb) H0. pose proof (grun_not_start _ _ _ H0 G) as H1. pose proof (GI_live _ _ H1 HI) as L.
  eapply wp_conseq; [apply flush_empties, L| |auto|auto]. cbn beta. intros _ s' [[L' C] B]. pose proof (kept_ctl _ _ C) as [K1 K2 K3].
  exists l, g. rewrite K1. repeat split; auto; [|congruence]. eapply GI_ctl; eassumption.
Qed.
(** What is pending. *)
Definition depth (g : gstate) : Z :=
  match g with GStart | GEnd => 0 | GDocs => 1 | GDoc _ fs => 2 + Z.of_nat (colls fs) end.
Lemma gstep_depth g d g' : gstep g d = Some g' -> (depth g' = depth g + level_delta (e_data (event_new d)))%Z.
Proof.
  intros H. change (e_data (event_new d)) with d. destruct g as [| |ds fs|].
  - destruct d; try discriminate H; injection H as <-; reflexivity.
  - destruct d; try discriminate H; injection H as <-; reflexivity.
  - destruct fs as [|[] [|f2 r]]; destruct d; cbn [gstep after option_map] in H; try discriminate H; injection H as <-; unfold depth, colls; cbn [map list_sum fold_right coll level_delta]; lia.
  - destruct d; discriminate H.
Qed.
Lemma level_pos l : forall g g' lev, level_returns lev l = false -> (0 < lev)%Z -> grun g (data l) = Some g' -> (0 < lev + depth g' - depth g)%Z.
Proof.
  induction l as [|e l IH]; intros g g' lev H Hl G; cbn [level_returns data map grun] in *; [injection G as <-; lia|].
  destruct (gstep g (e_data e)) as [g1|] eqn:E; [|discriminate]. apply gstep_depth in E. change (e_data (event_new (e_data e))) with (e_data e) in E.
  destruct (lev + level_delta (e_data e) =? 0)%Z eqn:E0; [discriminate|].
  assert (-1 <= level_delta (e_data e))%Z by (destruct (e_data e); cbn; lia).
  specialize (IH g1 g' _ H). assert (0 < lev + level_delta (e_data e))%Z by lia. specialize (IH H1 G). lia.
Qed.
Lemma pending_inside q g g' : ready q = false -> q <> [] -> g_ok g -> grun g (data q) = Some g' -> exists ds fs, g' = GDoc ds fs.
Proof.
  intros R Hq Hg G. destruct q as [|e r]; [destruct (Hq eq_refl)|]. cbn [ready] in R.
  destruct (accumulate (e_data e)) as [n|] eqn:Ea; [|discriminate]. apply orb_false_iff in R. destruct R as [_ R].
  cbn [level_returns data map grun] in R, G. destruct (gstep g (e_data e)) as [g1|] eqn:E; [|discriminate].
  assert (D : level_delta (e_data e) = 1%Z /\ (1 <= depth g)%Z).
  { destruct (e_data e); try discriminate Ea; (split; [reflexivity|]); destruct g; try discriminate E; unfold depth; lia. }
  destruct D as [D1 D2]. rewrite D1 in R. cbn [Z.add Z.eqb] in R. pose proof (level_pos r g1 g' 1 R eq_refl G) as P.
  apply gstep_depth in E. change (e_data (event_new (e_data e))) with (e_data e) in E. rewrite D1 in E.
  destruct g' as [| |ds fs|]; cbn [depth] in P; try lia. eauto.
Qed.
Lemma pending_short q : ready q = false -> (length q <= 3)%nat.
Proof.
  destruct q as [|e r]; [cbn; lia|]. cbn [ready]. destruct (e_data e); cbn [accumulate]; try discriminate; intros H; apply orb_false_iff in H; destruct H as [H _]; apply Nat.ltb_ge in H; lia.
Qed.
Lemma run_calls_spec c g0 l : g0 <> GStart -> forall es s, so_far c g0 es s -> Forall (fun e => ascii_tag (e_data e)) (es ++ emitted l) ->
  wp (run_calls l) (fun _ s' => so_far c g0 (es ++ emitted l) s')
    (fun x _ => io_error x \/ refuses x /\ bad_at c g0 (es ++ emitted l)) (fun _ => False) s.
Proof.
  intros H0. induction l as [|[e|] l IH]; intros es s S Ha; cbn [run_calls run_call emitted flat_map app] in *.
  - apply wp_ret. rewrite app_nil_r. exact S.
  - change (flat_map _ l) with (emitted l) in *. replace (es ++ e :: emitted l) with ((es ++ [e]) ++ emitted l) in * by (rewrite <- app_assoc; reflexivity).
    eapply wp_seq; [apply (emit_session_spec c g0 es e s S)| | |contradiction].
    + apply Forall_app in Ha. apply Ha.
    + cbn beta. intros _ s1 S1. apply IH; assumption.
    + cbn beta. intros x s1 [H|[H1 (a & e' & r' & g2 & E2 & G2 & V2 & B2)]]; [left; exact H|right]. split; [exact H1|].
      exists a, e', (r' ++ emitted l), g2. rewrite E2, <- app_assoc. auto.
  - change (flat_map _ l) with (emitted l) in *. eapply wp_seq; [apply (flush_session_spec c g0 es s S H0)| |left; assumption|contradiction].
    cbn beta. intros _ s1 S1. apply IH; assumption.
Qed.
Lemma run_emits_spec c g0 l : forall es s, so_far c g0 es s -> Forall (fun e => ascii_tag (e_data e)) (es ++ l) ->
  wp (run_calls (map CEmit l)) (fun _ s' => so_far c g0 (es ++ l) s')
    (fun x _ => io_error x \/ refuses x /\ bad_at c g0 (es ++ l)) (fun _ => False) s.
Proof.
  induction l as [|e l IH]; intros es s S Ha; cbn [run_calls run_call map].
  - apply wp_ret. rewrite app_nil_r. exact S.
  - replace (es ++ e :: l) with ((es ++ [e]) ++ l) in * by (rewrite <- app_assoc; reflexivity).
    eapply wp_seq; [apply (emit_session_spec c g0 es e s S)| | |contradiction].
    + apply Forall_app in Ha. apply Ha.
    + cbn beta. intros _ s1 S1. apply IH; assumption.
    + cbn beta. intros x s1 [H|[H1 (a & e' & r' & g2 & E2 & G2 & V2 & B2)]]; [left; exact H|right]. split; [exact H1|].
      exists a, e', (r' ++ l), g2. rewrite E2, <- app_assoc. auto.
Qed.
Lemma started_so_far ev st plan : so_far (st_canonical st) GDocs [] (started ev st plan).
Proof.
  exists [], GDocs. repeat split; auto; try constructor; try discriminate.
  - apply EmitSession.effective_encoding_set.
  - cbn [em_best_indent started]. unfold effective. cbn [st_indent]. destruct ((2 <=? st_indent st) && (st_indent st <=? 9))%Z eqn:E; lia.
  - cbn [em_best_indent started]. unfold effective. cbn [st_indent]. destruct ((2 <=? st_indent st) && (st_indent st <=? 9))%Z eqn:E; lia.
  - intros Hx; destruct Hx.
Qed.
Lemma new_so_far st plan : so_far (st_canonical st) GStart [] (new_emitter st plan).
Proof. exists [], GStart. destruct st as [[] ca i w un br]; repeat split; auto; try constructor; try discriminate; cbn; intros []. Qed.
