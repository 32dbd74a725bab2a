(** EmitChars.v -- which characters the emitter writes: ASCII ones, and characters of the events
    that need no escape. *)
From Coq Require Import ZifyBool ZifyNat ZifyN.
From Verif Require Import Base Utf Chars EState Emitter Document Api EmitText EmitRuns.

(** A char of Rust: a Unicode scalar value. *)
Definition scalar_value (c : char) : Prop := c < 55296 \/ 57343 < c < 1114112.
Definition opt_all {A} (P : A -> Prop) (o : option A) : Prop := match o with Some a => P a | None => True end.
Definition typed_str (s : str) : Prop := Forall scalar_value s.
Definition typed_td (t : tag_directive) : Prop := typed_str (td_handle t) /\ typed_str (td_prefix t).
Definition typed_data (d : event_data) : Prop :=
  match d with
  | EvDocumentStart _ tds _ => Forall typed_td tds
  | EvAlias a => typed_str a
  | EvScalar a t v _ _ _ => opt_all typed_str a /\ opt_all typed_str t /\ typed_str v
  | EvSequenceStart a t _ _ | EvMappingStart a t _ _ => opt_all typed_str a /\ opt_all typed_str t
  | _ => True
  end.
Definition typed_event (e : event) : Prop := typed_data (e_data e).

Definition ascii (c : char) : Prop := c < 128.

Section chars.
Variable u : bool.
Variable P : char -> Prop.
Hypothesis P_ascii : forall c, ascii c -> P c.
Hypothesis P_allowed : forall c, scalar_value c -> u = true \/ ascii c -> P c.

Definition I (c : est) : Prop :=
  nice c /\ em_unicode c = u /\ Forall typed_event (em_events c) /\
  Forall (fun t => Forall ascii (td_handle t)) (em_tag_directives c).

Definition Q {A} (R : A -> Prop) (m : M est A) : Prop := forall c, I c -> exists d r c',
  runs m c d r c' /\ Forall P d /\ I c' /\ (forall a, r = Ok a -> R a).
Notation K := (Q (fun _ => True)).

Lemma Q_ret {A} (R : A -> Prop) a : R a -> Q R (ret a).
Proof. intros H c Hc. exists [], (Ok a), c. split; [apply runs_ret|]. split; [constructor|]. split; [exact Hc|]. intros b [= <-]. exact H. Qed.
Lemma Q_fail {A} (R : A -> Prop) x : Q R (@fail est A x).
Proof. intros c Hc. exists [], (Err x), c. split; [apply runs_fail|]. split; [constructor|]. split; [exact Hc|]. discriminate. Qed.
Lemma Q_panics {A} (R : A -> Prop) x : Q R (@panics est A x).
Proof. intros c Hc. exists [], (Panic x), c. split; [apply runs_panics|]. split; [constructor|]. split; [exact Hc|]. discriminate. Qed.
Lemma Q_bind {A B} (R : A -> Prop) (R' : B -> Prop) m (k : A -> M est B) : Q R m -> (forall a, R a -> Q R' (k a)) -> Q R' (bind m k).
Proof.
  intros H1 H2 c H. destruct (H1 c H) as (d1 & r1 & c1 & R1 & F1 & N1 & S1). destruct (is_ok r1) eqn:E.
  - destruct r1 as [a|?|?|]; try discriminate E. destruct (H2 a (S1 a eq_refl) c1 N1) as (d2 & r2 & c2 & R2 & F2 & N2 & S2). exists (d1 ++ d2), r2, c2.
    split; [exact (runs_bind _ _ _ _ _ _ _ _ _ R1 R2)|]. split; [apply Forall_app; auto|]. auto.
  - exists d1, (recast r1), c1. split; [exact (runs_bind_stop _ _ _ _ _ _ E R1)|]. split; [exact F1|]. split; [exact N1|].
    intros b Hb. destruct r1; discriminate Hb || discriminate E.
Qed.
Lemma K_bind {A B} (R' : B -> Prop) m (k : A -> M est B) : K m -> (forall a, Q R' (k a)) -> Q R' (bind m k).
Proof. intros H1 H2. apply (Q_bind (fun _ => True)); auto. Qed.
Lemma Q_get {A} (R : A -> Prop) (k : est -> M est A) : (forall s, k s = k (core s)) -> (forall c, I c -> Q R (k c)) -> Q R (bind get k).
Proof.
  intros H1 H2 c H. destruct (H2 c H c H) as (d & r & c' & R1 & N). exists d, r, c'. split; [exact (runs_get _ _ _ _ _ H1 R1)|exact N].
Qed.
Lemma Q_get_at {A} (R : A -> Prop) (k : est -> M est A) : (forall s, k s = k (core s)) ->
  (forall c, I c -> exists d r c', runs (k c) c d r c' /\ Forall P d /\ I c' /\ (forall a, r = Ok a -> R a)) -> Q R (bind get k).
Proof.
  intros H1 H2 c H. destruct (H2 c H) as (d & r & c' & R1 & N). exists d, r, c'. split; [exact (runs_get _ _ _ _ _ H1 R1)|exact N].
Qed.
Lemma K_modify f : inner f -> (forall c, I c -> I (core (f c))) -> K (modify f).
Proof. intros H1 H2 c H. exists [], (Ok tt), (core (f c)). split; [apply runs_modify, H1|]. split; [constructor|]. auto. Qed.
Lemma Q_raw {A} (R : A -> Prop) (m : M est A) :
  (forall s, fst (m s) = fst (m (core s)) /\ core (snd (m s)) = core (snd (m (core s))) /\
     em_writer (snd (m s)) = em_writer s /\ em_buffer (snd (m s)) = em_buffer s /\
     em_raw (snd (m s)) = em_raw s /\ em_encoding (snd (m s)) = em_encoding s) ->
  (forall c, I c -> I (core (snd (m c))) /\ (forall a, fst (m c) = Ok a -> R a)) -> Q R m.
Proof.
  intros H1 H2 c H. destruct (H2 c H) as [H3 H4]. exists [], (fst (m c)), (core (snd (m c))).
  split; [apply runs_raw, H1|]. split; [constructor|]. auto.
Qed.
Lemma Q_conseq {A} (R R' : A -> Prop) m : Q R m -> (forall a, R a -> R' a) -> Q R' m.
Proof. intros H1 H2 c H. destruct (H1 c H) as (d & r & c' & R1 & F & N & S). exists d, r, c'. split; [exact R1|]. split; [exact F|]. auto. Qed.
Lemma K_when b m : (b = true -> K m) -> K (when b m).
Proof. intros H. destruct b; [auto|apply Q_ret; exact Logic.I]. Qed.
Lemma K_iterM {A} (f : A -> M est unit) (l : list A) : (forall x, In x l -> K (f x)) -> K (iterM f l).
Proof.
  induction l as [|x l IH]; intros H; cbn [iterM]; [apply Q_ret; exact Logic.I|]. apply K_bind; [apply H; left; reflexivity|].
  intros _. apply IH. intros y Hy. apply H. right. exact Hy.
Qed.
Lemma K_from (m : M est unit) (d : est -> list char) (c' : est -> est) :
  (forall c, runs m c (d c) (Ok tt) (c' c)) -> (forall c, Forall P (d c)) -> (forall c, I c -> I (c' c)) -> K m.
Proof. intros H1 H2 H3 c H. exists (d c), (Ok tt), (c' c). split; [apply H1|]. split; [apply H2|]. auto. Qed.

Lemma K_flush : K flush. Proof. apply (K_from _ (fun _ => []) (fun c => c)); [apply runs_flush|constructor|auto]. Qed.
Lemma K_flush_if_needed : K flush_if_needed. Proof. apply (K_from _ (fun _ => []) (fun c => c)); [apply runs_flush_if_needed|constructor|auto]. Qed.
Lemma K_put x : P x -> K (put x).
Proof. intros Hx. apply (K_from _ (fun _ => [x]) (after_chars 1)); [apply runs_put|repeat constructor; exact Hx|auto]. Qed.
Lemma K_write_char x : P x -> K (write_char x). Proof. apply K_put. Qed.
Lemma K_write_str x : Forall P x -> K (write_str x).
Proof. intros H. apply (K_from _ (fun _ => x) (after_chars (Z.of_nat (length x)))); [apply runs_write_str|auto|auto]. Qed.
Lemma break_ascii b : Forall P (break_chars b).
Proof. destruct b; cbn; repeat constructor; apply P_ascii; reflexivity. Qed.
Lemma K_put_break : K put_break.
Proof. apply (K_from _ (fun c => break_chars (em_line_break c)) after_line); [apply runs_put_break|intros; apply break_ascii|auto]. Qed.

Create HintDb kk.
Hint Resolve K_flush K_flush_if_needed K_put_break : kk.
Hint Extern 1 (Q _ (put _)) => apply K_put; first [assumption | apply P_ascii; reflexivity] : kk.
Hint Extern 1 (Q _ (write_char _)) => apply K_write_char; first [assumption | apply P_ascii; reflexivity] : kk.
Hint Extern 1 (Q _ (write_str _)) => apply K_write_str; assumption : kk.
Ltac k1 :=
  lazymatch goal with
  | |- Q _ (ret _) => apply Q_ret; try exact Logic.I
  | |- Q _ (fail _) => apply Q_fail
  | |- Q _ (emitter_error _) => apply Q_fail
  | |- Q _ (panics _) => apply Q_panics
  | |- Q _ (modify _) => apply K_modify; [jinner|let c := fresh "c" in intros c; exact (fun h => h)]
  | |- Q _ (bind get _) => apply Q_get; [intros; reflexivity|let c := fresh "c" in intros c ?]
  | |- Q _ (bind _ _) => apply K_bind; [|intros]
  | |- Q _ (when ?b _) => apply K_when; intros
  | |- Q _ (let '(_, _) := ?x in _) => destruct x
  | |- Q _ (match e_data ?t with _ => _ end) => let x := fresh "x" in generalize (e_data t); intros x; destruct x
  | |- Q _ (match ?x with _ => _ end) => destruct x
  end.
Ltac ks := repeat first [ solve [auto with kk nocore] | k1 ].
Ltac ku f := unfold f; cbv zeta; ks.

Lemma K_write_break x : P x -> K (write_break x).
Proof. intros Hx. unfold write_break. ks. unfold new_line. ks. Qed.
Hint Extern 1 (Q _ (write_break _)) => apply K_write_break; first [assumption | apply P_ascii; reflexivity] : kk.
Lemma K_put_spaces n : K (put_spaces n). Proof. induction n; cbn [put_spaces]; ks. Qed.
Lemma K_set_ws a b : K (set_ws a b). Proof. ku set_ws. Qed.
Lemma K_set_indention a : K (set_indention a). Proof. ku set_indention. Qed.
Hint Resolve K_put_spaces K_set_ws K_set_indention : kk.
Lemma K_write_indent : K write_indent. Proof. ku write_indent. Qed.
Lemma K_write_indicator a b c d : Forall ascii a -> K (write_indicator a b c d).
Proof. intros H. assert (Forall P a) by (eapply Forall_impl; [exact P_ascii|exact H]). ku write_indicator. Qed.
Ltac asciis := repeat (constructor; [reflexivity|]); constructor.
Hint Extern 1 (Q _ (write_indicator _ _ _ _)) => apply K_write_indicator; first [assumption | solve [asciis]] : kk.
Hint Resolve K_write_indent : kk.
Lemma K_write_anchor v : Forall ascii v -> K (write_anchor v).
Proof. intros H. assert (Forall P v) by (eapply Forall_impl; [exact P_ascii|exact H]). ku write_anchor. Qed.
Lemma K_write_tag_handle v : Forall ascii v -> K (write_tag_handle v).
Proof. intros H. assert (Forall P v) by (eapply Forall_impl; [exact P_ascii|exact H]). ku write_tag_handle. Qed.
Lemma alpha_ascii c : is_alpha_c c = true -> ascii c.
Proof. unfold is_alpha_c, ascii, in_range. lia. Qed.
Lemma uri_ascii c : tag_uri_char c = true -> ascii c.
Proof.
  unfold tag_uri_char. intros H. apply orb_true_iff in H. destruct H as [H|H]; [exact (alpha_ascii _ H)|].
  apply existsb_exists in H. destruct H as (y & Hy & E). apply N.eqb_eq in E. subst y. unfold ascii.
  repeat (destruct Hy as [<-|Hy]; [reflexivity|]). destruct Hy.
Qed.
Ltac Zify.zify_post_hook ::= Z.div_mod_to_equations.
Lemma utf8_bytes c : c < 1114112 -> Forall (fun b => b < 256) (encode_utf8_char c).
Proof.
  intros H. unfold encode_utf8_char. destruct (c <? 128) eqn:E1; [repeat constructor; lia|].
  destruct (c <? 2048) eqn:E2; [repeat constructor; lia|]. destruct (c <? 65536) eqn:E3; repeat constructor; lia.
Qed.
Lemma hex_ascii d : d < 16 -> ascii (hex_upper d).
Proof. unfold hex_upper, ascii. intros H. destruct (d <? 10); lia. Qed.
Lemma byte_hi b : b < 256 -> b / 16 < 16. Proof. lia. Qed.
Lemma byte_lo b : b mod 16 < 16. Proof. lia. Qed.
Ltac Zify.zify_post_hook ::= idtac.
Lemma scalar_bound c : scalar_value c -> c < 1114112. Proof. unfold scalar_value. lia. Qed.
Lemma K_write_tag_content v b : typed_str v -> K (write_tag_content v b).
Proof.
  intros H. unfold write_tag_content. ks. apply K_iterM. intros x Hx. unfold typed_str in H. rewrite Forall_forall in H. specialize (H x Hx).
  destruct (tag_uri_char x) eqn:Ex; [apply K_write_char, P_ascii, uri_ascii, Ex|].
  apply K_iterM. intros y Hy. pose proof (utf8_bytes x (scalar_bound x H)) as Hb. rewrite Forall_forall in Hb. specialize (Hb y Hy).
  ks; apply K_put, P_ascii, hex_ascii; [apply byte_hi, Hb|apply byte_lo].
Qed.

(** Scalars that are written as they are. *)
Lemma K_plain_loop a l : Forall P l -> forall b c, K (plain_loop a b c l).
Proof. intros H. induction H as [|x l Hx Hl IH]; intros b c; cbn [plain_loop]; ks. Qed.
Lemma K_single_loop a l : Forall P l -> forall b c d, K (single_loop a b c d l).
Proof. intros H. induction H as [|x l Hx Hl IH]; intros b c d; cbn [single_loop]; ks. Qed.
Lemma K_literal_loop l : Forall P l -> forall b, K (literal_loop b l).
Proof. intros H. induction H as [|x l Hx Hl IH]; intros b; cbn [literal_loop]; ks. Qed.
Lemma K_folded_loop l : Forall P l -> forall b c, K (folded_loop b c l).
Proof. intros H. induction H as [|x l Hx Hl IH]; intros b c; cbn [folded_loop]; cbv zeta; ks. Qed.
Hint Extern 1 (Q _ (plain_loop _ _ _ _)) => apply K_plain_loop; assumption : kk.
Hint Extern 1 (Q _ (single_loop _ _ _ _ _)) => apply K_single_loop; assumption : kk.
Hint Extern 1 (Q _ (literal_loop _ _)) => apply K_literal_loop; assumption : kk.
Hint Extern 1 (Q _ (folded_loop _ _ _)) => apply K_folded_loop; assumption : kk.
Lemma hex_digits_ascii n v : Forall ascii (hex_digits n v).
Proof. unfold hex_digits. apply Forall_forall. intros x Hx. apply in_map_iff in Hx. destruct Hx as (k & <- & _). apply hex_ascii, byte_lo. Qed.
Lemma escape_ascii c : Forall ascii (escape_chars c).
Proof.
  unfold escape_chars.
  repeat match goal with |- Forall _ (if ?b then _ else _) => destruct b; [solve [asciis | constructor; [reflexivity|apply hex_digits_ascii]]|] end.
  constructor; [reflexivity|apply hex_digits_ascii].
Qed.
Lemma K_double_loop a l : typed_str l -> forall b c, K (double_loop a b c l).
Proof.
  intros H. induction H as [|x l Hx Hl IH]; intros b c; cbn [double_loop]; [apply Q_ret; exact Logic.I|].
  apply Q_get; [reflexivity|]. intros s Hs. destruct (needs_escape (em_unicode s) x) eqn:E.
  - ks. apply K_iterM. intros y Hy. apply K_put, P_ascii. pose proof (escape_ascii x) as Ha. rewrite Forall_forall in Ha. exact (Ha y Hy).
  - assert (Px : P x).
    { apply P_allowed; [exact Hx|]. destruct Hs as (_ & Hu & _). rewrite Hu in E. unfold needs_escape in E.
      destruct u; [auto|right]. unfold ascii. unfold is_ascii in E. lia. }
    ks.
Qed.
Hint Extern 1 (Q _ (double_loop _ _ _ _)) => apply K_double_loop; assumption : kk.
Lemma K_write_plain_scalar v b : Forall P v -> K (write_plain_scalar v b). Proof. intros H. ku write_plain_scalar. Qed.
Lemma K_write_single_quoted_scalar v b : Forall P v -> K (write_single_quoted_scalar v b). Proof. intros H. ku write_single_quoted_scalar. Qed.
Lemma K_write_double_quoted_scalar v b : typed_str v -> K (write_double_quoted_scalar v b). Proof. intros H. ku write_double_quoted_scalar. Qed.
Lemma K_write_block_scalar_hints v : K (write_block_scalar_hints v).
Proof.
  unfold write_block_scalar_hints. apply Q_get; [reflexivity|]. intros s _. apply K_bind; [|intros _; ks].
  destruct (_ || _); [|apply Q_ret; exact Logic.I]. destruct ((0 <=? em_best_indent s) && (em_best_indent s <? 10))%Z eqn:E; [|apply Q_panics].
  apply K_write_indicator. constructor; [|constructor]. unfold ascii. lia.
Qed.
Hint Resolve K_write_block_scalar_hints : kk.
Lemma K_write_literal_scalar v : Forall P v -> K (write_literal_scalar v). Proof. intros H. ku write_literal_scalar. Qed.
Lemma K_write_folded_scalar v : Forall P v -> K (write_folded_scalar v). Proof. intros H. ku write_folded_scalar. Qed.

(** The analysis: a scalar that may be written unquoted, in single quotes or as a block has no
    character that would have to be escaped. *)
Definition calm (v : str) : Prop := Forall (fun c => u = true \/ ascii c) v.
Lemma analyze_special l : forall first f, f_special (analyze_loop u first f l) = false -> f_special f = false /\ calm l.
Proof.
  induction l as [|x l IH]; intros first f H; [split; [exact H|constructor]|].
  cbn [analyze_loop] in H. destruct (if first then _ else _) as [fi bi].
  apply IH in H. destruct H as [H1 H2]. cbn [f_special] in H1. apply orb_false_iff in H1. destruct H1 as [H1 H3].
  apply orb_false_iff in H1. destruct H1 as [H1 _]. split; [exact H1|]. constructor; [|exact H2].
  destruct u; [auto|right]. unfold ascii, is_ascii in *. lia.
Qed.
Lemma analysis_calm v sa : analyze_scalar u v = sa ->
  (sa_flow_plain_allowed sa = true \/ sa_block_plain_allowed sa = true \/ sa_single_quoted_allowed sa = true \/ sa_block_allowed sa = true) -> calm v.
Proof.
  intros <-. unfold analyze_scalar. destruct v as [|x v]; [constructor|]. cbn [is_empty].
  set (f := analyze_loop _ _ _ _). intros H.
  assert (E : f_special f = false).
  { cbn [sa_flow_plain_allowed sa_block_plain_allowed sa_single_quoted_allowed sa_block_allowed] in H.
    destruct (f_special f); [|reflexivity]. rewrite !orb_true_r in H. cbn [negb orb] in H. rewrite ?orb_true_r in H. cbn in H.
    destruct H as [H|[H|[H|H]]]; discriminate H. }
  apply analyze_special in E. apply E.
Qed.
Definition good_sa (sa : scalar_analysis) : Prop := typed_str (sa_value sa) /\ analyze_scalar u (sa_value sa) = sa.
Lemma value_of v : sa_value (analyze_scalar u v) = v.
Proof. unfold analyze_scalar. destruct v; reflexivity. Qed.
Lemma good_P sa : good_sa sa -> calm (sa_value sa) -> Forall P (sa_value sa).
Proof.
  intros [H1 _] H2. unfold typed_str, calm in *. rewrite Forall_forall in *. intros x Hx. apply P_allowed; auto.
Qed.
Lemma choose_calm s pi st sa nt : good_sa sa -> forall r, choose_style s pi st sa nt = r -> r = SDouble \/ r = SAny \/ calm (sa_value sa).
Proof.
  intros [_ Hsa] r <-. assert (A := analysis_calm (sa_value sa) sa Hsa). unfold choose_style. cbv zeta.
  generalize (if em_simple_key_context s && sa_multiline sa then SDouble else if em_canonical s then SDouble else if style_eqb st SAny then SPlain else st).
  intros st1. set (fl := negb (em_flow_level s =? 0)%Z).
  destruct (sa_single_quoted_allowed sa) eqn:E3; [right; right; apply A; auto|].
  destruct (sa_flow_plain_allowed sa) eqn:E1; [right; right; apply A; auto|].
  destruct (sa_block_plain_allowed sa) eqn:E2; [right; right; apply A; auto|].
  destruct (sa_block_allowed sa) eqn:E4; [right; right; apply A; auto|].
  destruct st1, fl; cbn; rewrite ?E1, ?E2, ?E3, ?E4; cbn; auto.
Qed.
Definition good_tag (t : str * str) : Prop := Forall ascii (fst t) /\ typed_str (snd t).
Definition good_an (an : analysis) : Prop :=
  opt_all (fun a : str * bool => Forall ascii (fst a)) (an_anchor_a an) /\ opt_all good_tag (an_tag an) /\ opt_all good_sa (an_scalar an).

Lemma K_increase_indent a b : K (increase_indent a b).
Proof.
  unfold increase_indent. apply K_modify.
  - intros s. cbv zeta. cbn [em_indent set_em_indents core set_em_writer set_em_buffer set_em_raw set_em_encoding].
    destruct (em_indent s <? 0)%Z; [repeat split|]. destruct (negb b); repeat split.
  - intros c H. cbv zeta. destruct (_ <? 0)%Z; [exact H|]. destruct (negb b); exact H.
Qed.
Lemma K_pop_indent : K pop_indent.
Proof.
  apply Q_raw; [intros s|intros c H]; unfold pop_indent; cbn [core em_indents set_em_writer set_em_buffer set_em_raw set_em_encoding].
  - destruct (em_indents s); repeat split.
  - destruct (em_indents c); (split; [exact H|auto]).
Qed.
Lemma K_pop_estate : K pop_estate.
Proof.
  apply Q_raw; [intros s|intros c H]; unfold pop_estate; cbn [core em_states set_em_writer set_em_buffer set_em_raw set_em_encoding].
  - destruct (em_states s); repeat split.
  - split; [|auto]. destruct H as [[H1 H2] H]. destruct (em_states c) as [|x l] eqn:E.
    + split; [split; [exact H1|cbn; rewrite E; exact H2]|exact H].
    + split; [|exact H]. split; cbn; intros F; apply H2; [left; auto|right; auto].
Qed.
Lemma K_goto x : x <> EStreamStart -> K (goto_estate x).
Proof. intros Hx. unfold goto_estate. apply K_modify; [jinner|]. intros c [[H1 H2] H]. split; [|exact H]. split; [exact Hx|exact H2]. Qed.
Lemma K_push x : x <> EStreamStart -> K (push_estate x).
Proof. intros Hx. unfold push_estate. apply K_modify; [jinner|]. intros c [[H1 H2] H]. split; [|exact H]. split; [exact H1|]. intros [F|F]; [exact (Hx F)|exact (H2 F)]. Qed.
Hint Resolve K_increase_indent K_pop_indent K_pop_estate : kk.
Hint Extern 1 (Q _ (goto_estate _)) => apply K_goto; discriminate : kk.
Hint Extern 1 (Q _ (push_estate _)) => apply K_push; discriminate : kk.

Lemma K_append v b : Forall ascii (td_handle v) -> K (em_append_tag_directive v b).
Proof.
  intros Hv. unfold em_append_tag_directive. ks. apply K_modify; [jinner|]. intros c0 (H1 & H2 & H3 & H4). repeat split; auto; try apply H1.
  cbn [em_tag_directives set_em_tag_directives core set_em_writer set_em_buffer set_em_raw set_em_encoding]. apply Forall_app. auto.
Qed.
Lemma K_process_anchor a : opt_all (fun a : str * bool => Forall ascii (fst a)) a -> K (process_anchor a).
Proof. intros H. unfold process_anchor. destruct a as [[v b]|]; [|ks]. cbn in H. apply K_bind; [destruct b; ks|intros _]. apply K_write_anchor, H. Qed.
Lemma K_process_tag t : opt_all good_tag t -> K (process_tag t).
Proof.
  intros H. unfold process_tag. destruct t as [[h x]|]; [|ks]. destruct H as [Hh Hx]. cbn [fst snd] in Hh, Hx.
  ks; first [apply K_write_tag_content, Hx | apply K_write_tag_handle, Hh].
Qed.
Lemma K_process_scalar sa st : good_sa sa -> st = SDouble \/ st = SAny \/ calm (sa_value sa) -> K (process_scalar (sa_value sa) st).
Proof.
  intros H1 H2. unfold process_scalar. apply Q_get; [reflexivity|]. intros s _. cbv zeta.
  destruct H2 as [->|[->|H2]]; [apply K_write_double_quoted_scalar, H1|apply Q_panics|]. pose proof (good_P sa H1 H2) as H3.
  destruct st; [apply Q_panics|apply K_write_plain_scalar, H3|apply K_write_single_quoted_scalar, H3|apply K_write_double_quoted_scalar, H1
    |apply K_write_literal_scalar, H3|apply K_write_folded_scalar, H3].
Qed.
Lemma Q_select pi qi st sa t : good_sa sa -> opt_all good_tag t ->
  Q (fun x => (fst x = SDouble \/ fst x = SAny \/ calm (sa_value sa)) /\ opt_all good_tag (snd x)) (select_scalar_style pi qi st sa t).
Proof.
  intros H1 H2. unfold select_scalar_style. apply Q_get; [reflexivity|]. intros s _. cbv zeta. destruct (_ && _ && _); [apply Q_fail|].
  apply Q_ret. cbn [fst snd]. split; [exact (choose_calm s pi st sa _ H1 _ eq_refl)|].
  destruct (_ && _); [|exact H2]. cbn. split; [asciis|constructor].
Qed.
Lemma K_emit_alias an : good_an an -> K (emit_alias an).
Proof. intros (H & _). unfold emit_alias. apply K_bind; [apply K_process_anchor, H|intros _]. ks. Qed.
Lemma K_emit_scalar a b c an : good_an an -> K (emit_scalar a b c an).
Proof.
  intros (H1 & H2 & H3). unfold emit_scalar. destruct (an_scalar an) as [sa|]; [|apply Q_panics]. cbn in H3.
  eapply Q_bind; [apply (Q_select a b c sa (an_tag an) H3 H2)|]. intros [st tag] [G1 G2]. cbn [fst snd] in G1, G2.
  apply K_bind; [apply K_process_anchor, H1|intros _]. apply K_bind; [apply K_process_tag, G2|intros _]. 
  apply K_bind; [ks|intros _]. apply K_bind; [apply K_process_scalar; auto|intros _]. ks.
Qed.
Lemma K_emit_sequence_start a b an : good_an an -> K (emit_sequence_start a b an).
Proof.
  intros (H1 & H2 & H3). unfold emit_sequence_start. apply K_bind; [apply K_process_anchor, H1|intros _]. apply K_bind; [apply K_process_tag, H2|intros _].
  ks. apply K_goto. destruct (_ || _); discriminate.
Qed.
Lemma K_emit_mapping_start a b an : good_an an -> K (emit_mapping_start a b an).
Proof.
  intros (H1 & H2 & H3). unfold emit_mapping_start. apply K_bind; [apply K_process_anchor, H1|intros _]. apply K_bind; [apply K_process_tag, H2|intros _].
  ks. apply K_goto. destruct (_ || _); discriminate.
Qed.
Hint Resolve K_emit_alias K_emit_scalar K_emit_sequence_start K_emit_mapping_start : kk.
Lemma K_emit_node e a b c d an : good_an an -> K (emit_node e a b c d an). Proof. intros H. ku emit_node. Qed.
Hint Resolve K_emit_node : kk.
Lemma K_analyze_vd v : K (analyze_version_directive v). Proof. ku analyze_version_directive. Qed.
Hint Resolve K_analyze_vd : kk.
Lemma str_len_cons c (l : str) : str_len (c :: l) = len_utf8 c + str_len l.
Proof. reflexivity. Qed.
Lemma len_pos c : 1 <= len_utf8 c. Proof. unfold len_utf8. destruct (_ <? _); [lia|]. destruct (_ <? _); [lia|]. destruct (_ <? _); lia. Qed.
Lemma last_opt_app {A} (l : list A) x : last_opt (l ++ [x]) = Some x.
Proof. induction l as [|y l IH]; [reflexivity|]. cbn [app last_opt]. destruct (l ++ [x]) eqn:E; [destruct l; discriminate E|exact IH]. Qed.
Lemma handle_ascii h : is_empty h = false -> starts_with cBANG h = true -> ends_with cBANG h = true ->
  (2 <? str_len h) && negb (forallb is_alpha_c (removelast (tl h))) = false -> Forall ascii h.
Proof.
  intros H1 H2 H3 H4. destruct h as [|c h]; [discriminate H1|]. cbn in H2. apply N.eqb_eq in H2. subst c.
  constructor; [reflexivity|]. unfold ends_with in H3. cbn [tl] in H4.
  destruct (rev h) as [|y r] eqn:Er; [apply (f_equal (@rev char)) in Er; rewrite rev_involutive in Er; subst h; constructor|].
  apply (f_equal (@rev char)) in Er. rewrite rev_involutive in Er. cbn [rev] in Er. subst h.
  rewrite app_comm_cons, last_opt_app in H3. apply N.eqb_eq in H3. subst y.
  apply Forall_app. split; [|repeat constructor]. rewrite removelast_last in H4.
  apply andb_false_iff in H4. destruct H4 as [E|H4].
  2:{ apply negb_false_iff in H4. rewrite forallb_forall in H4. apply Forall_forall. intros z Hz. apply alpha_ascii, H4, Hz. }
  destruct (rev r) as [|z l]; [constructor|]. exfalso. apply N.ltb_ge in E. cbn [app] in E. rewrite !str_len_cons in E.
  assert (1 <= str_len (l ++ [cBANG])). { destruct l as [|w l]; cbn [app]; rewrite str_len_cons; [pose proof (len_pos cBANG)|pose proof (len_pos w)]; lia. }
  pose proof (len_pos cBANG) as A1. pose proof (len_pos z) as A2. unfold char in *. revert H E A1 A2. generalize (str_len (l ++ [cBANG])), (len_utf8 z), (len_utf8 cBANG). intros. lia.
Qed.
Lemma Q_analyze_td v : Q (fun _ => Forall ascii (td_handle v)) (analyze_tag_directive v).
Proof.
  unfold analyze_tag_directive. cbv zeta.
  destruct (is_empty (td_handle v)) eqn:E1; [apply Q_fail|]. destruct (starts_with cBANG (td_handle v)) eqn:E2; [|apply Q_fail].
  destruct (ends_with cBANG (td_handle v)) eqn:E3; [|apply Q_fail]. cbn [negb]. destruct (_ && _) eqn:E4; [apply Q_fail|].
  destruct (is_empty (td_prefix v)); [apply Q_fail|]. apply Q_ret. exact (handle_ascii _ E1 E2 E3 E4).
Qed.
Lemma K_emit_document_start e b : typed_event e -> K (emit_document_start e b).
Proof.
  unfold typed_event, emit_document_start. destruct (e_data e) as [| |vd tds im| | | | | | |]; intros H; try apply Q_fail; [ks|].
  cbn in H. rewrite Forall_forall in H.
  apply K_bind; [ks|intros _].
  apply (Q_bind (fun _ => Forall (fun t => Forall ascii (td_handle t)) tds)).
  { clear H. induction tds as [|t tds IH]; cbn [iterM]; [apply Q_ret; constructor|].
    apply (Q_bind (fun _ => Forall ascii (td_handle t))).
    - eapply Q_bind; [apply Q_analyze_td|]. intros ? Ht. eapply Q_conseq; [apply K_append, Ht|auto].
    - intros ? Ht. eapply Q_conseq; [exact IH|]. intros ? Hr. constructor; auto. }
  intros ? Hh. rewrite Forall_forall in Hh.
  apply K_bind. { apply K_iterM. intros t Ht. apply K_append. destruct Ht as [<-|[<-|[]]]; cbn; asciis. }
  intros _. apply Q_get; [reflexivity|]. intros s _. cbv zeta.
  apply K_bind; [ks|intros _]. apply K_bind; [ks|intros _]. apply K_bind.
  { destruct vd; [|ks]. apply K_bind; [ks|intros _]. apply K_bind; [destruct (_ =? _)%Z; ks|intros _; ks]. }
  intros _. apply K_bind.
  { apply K_iterM. intros t Ht. ks; [apply K_write_tag_handle, Hh, Ht|apply K_write_tag_content]. apply (H t Ht). }
  intros _. ks.
Qed.
Lemma K_emit_document_content e an : good_an an -> K (emit_document_content e an). Proof. intros H. ku emit_document_content. Qed.
Lemma K_emit_document_end e : K (emit_document_end e).
Proof. ku emit_document_end. apply K_modify; [jinner|]. intros c0 (H1 & H2 & H3 & H4). repeat split; auto; try apply H1. constructor. Qed.
Lemma K_add_flow_level n : K (add_flow_level n). Proof. ku add_flow_level. Qed.
Lemma K_wrap_line : K wrap_line. Proof. ku wrap_line. Qed.
Hint Resolve K_emit_document_start K_emit_document_content K_emit_document_end K_add_flow_level K_wrap_line : kk.
Lemma K_close_flow a b : ascii b -> K (close_flow a b).
Proof. intros H. unfold close_flow. ks. apply K_write_indicator. constructor; [exact H|constructor]. Qed.
Hint Extern 1 (Q _ (close_flow _ _)) => apply K_close_flow; reflexivity : kk.
Lemma K_check_simple_key e an : K (check_simple_key e an). Proof. ku check_simple_key. Qed.
Hint Resolve K_check_simple_key : kk.
Lemma K_fsi e b an : good_an an -> K (emit_flow_sequence_item e b an). Proof. intros H. ku emit_flow_sequence_item. Qed.
Lemma K_fmk e b an : good_an an -> K (emit_flow_mapping_key e b an). Proof. intros H. ku emit_flow_mapping_key. Qed.
Lemma K_fmv e b an : good_an an -> K (emit_flow_mapping_value e b an). Proof. intros H. ku emit_flow_mapping_value. Qed.
Lemma K_bsi e b an : good_an an -> K (emit_block_sequence_item e b an). Proof. intros H. ku emit_block_sequence_item. Qed.
Lemma K_bmk e b an : good_an an -> K (emit_block_mapping_key e b an). Proof. intros H. ku emit_block_mapping_key. Qed.
Lemma K_bmv e b an : good_an an -> K (emit_block_mapping_value e b an). Proof. intros H. ku emit_block_mapping_value. Qed.
Hint Resolve K_fsi K_fmk K_fmv K_bsi K_bmk K_bmv : kk.
Lemma K_em_state_machine e an : typed_event e -> good_an an -> K (em_state_machine e an).
Proof.
  intros He Ha. unfold em_state_machine. apply Q_get_at; [reflexivity|]. intros c H.
  destruct (em_state c) eqn:E; try (destruct H as [[H _] _]; destruct (H E));
  match goal with |- exists d r c', runs ?m _ _ _ _ /\ _ => assert (Km : K m) by ks; exact (Km c H) end.
Qed.
Lemma Q_analyze_anchor a b : Q (fun x => Forall ascii (fst x)) (analyze_anchor a b).
Proof.
  unfold analyze_anchor. destruct (is_empty a); [destruct b; apply Q_fail|]. destruct (forallb is_alpha_c a) eqn:E; [|destruct b; apply Q_fail].
  apply Q_ret. cbn [fst]. rewrite forallb_forall in E. apply Forall_forall. intros x Hx. apply alpha_ascii, E, Hx.
Qed.
Lemma split_bytes_app l : forall n a b, split_bytes n l = Some (a, b) -> l = a ++ b.
Proof.
  induction l as [|c l IH]; intros n a b; cbn [split_bytes]; destruct (n =? 0); try discriminate; try (intros [= <- <-]; reflexivity).
  destruct (n <? len_utf8 c); [discriminate|]. destruct (split_bytes (n - len_utf8 c) l) as [[x y]|] eqn:E; [|discriminate].
  intros [= <- <-]. cbn. f_equal. exact (IH _ _ _ E).
Qed.
Lemma Q_analyze_tag t tds : typed_str t -> Forall (fun t => Forall ascii (td_handle t)) tds -> Q good_tag (analyze_tag t tds).
Proof.
  intros Ht H. unfold analyze_tag. destruct (is_empty t); [apply Q_fail|]. induction H as [|x l Hx Hl IH]; cbn [analyze_tag_loop].
  - apply Q_ret. split; [constructor|exact Ht].
  - cbv zeta. destruct (_ <? _); [|exact IH]. destruct (split_bytes _ t) as [[a b]|] eqn:E; [|apply Q_panics].
    destruct (str_eqb _ _); [|exact IH]. apply Q_ret. split; [exact Hx|]. apply split_bytes_app in E. subst t. apply Forall_app in Ht. apply Ht.
Qed.
Lemma Q_analyze_event e tds : typed_event e -> Forall (fun t => Forall ascii (td_handle t)) tds -> Q good_an (analyze_event e tds).
Proof.
  intros He Ht. unfold analyze_event, typed_event in *.
  assert (Qa : forall a, Q (opt_all (fun a : str * bool => Forall ascii (fst a))) (analyze_opt_anchor a)).
  { intros [a|]; cbn [analyze_opt_anchor]; [|apply Q_ret; exact Logic.I]. eapply Q_bind; [apply Q_analyze_anchor|]. intros x Hx. apply Q_ret. exact Hx. }
  assert (Qt : forall t b, opt_all typed_str t -> Q (opt_all good_tag) (analyze_opt_tag t b tds)).
  { intros [t|] b Hb; cbn [analyze_opt_tag]; [|apply Q_ret; exact Logic.I]. destruct b; [|apply Q_ret; exact Logic.I].
    eapply Q_bind; [apply Q_analyze_tag; auto|]. intros x Hx. apply Q_ret. exact Hx. }
  apply Q_get; [reflexivity|]. intros s Hs. destruct (e_data e); try (apply Q_ret; exact (conj Logic.I (conj Logic.I Logic.I))).
  - eapply Q_bind; [apply Q_analyze_anchor|]. intros x Hx. apply Q_ret. exact (conj Hx (conj Logic.I Logic.I)).
  - destruct He as (H1 & H2 & H3). eapply Q_bind; [apply Qa|]. intros x Hx. eapply Q_bind; [apply Qt, H2|]. intros y Hy. apply Q_ret.
    split; [exact Hx|]. split; [exact Hy|]. cbn. destruct Hs as (_ & -> & _). unfold good_sa. rewrite !value_of. auto.
  - destruct He as (H1 & H2). eapply Q_bind; [apply Qa|]. intros x Hx. eapply Q_bind; [apply Qt, H2|]. intros y Hy. apply Q_ret.
    exact (conj Hx (conj Hy Logic.I)).
  - destruct He as (H1 & H2). eapply Q_bind; [apply Qa|]. intros x Hx. eapply Q_bind; [apply Qt, H2|]. intros y Hy. apply Q_ret.
    exact (conj Hx (conj Hy Logic.I)).
Qed.
Lemma K_emit_one e : typed_event e -> K (emit_one e).
Proof.
  intros He. unfold emit_one. apply Q_get; [reflexivity|]. intros s Hs. cbv zeta. pose proof Hs as (_ & _ & _ & Ht).
  apply K_bind. { apply K_modify; [jinner|]. intros c0 (H1 & H2 & H3 & H4). repeat split; auto; try apply H1. constructor. }
  intros _. eapply Q_bind; [exact (Q_analyze_event e _ He Ht)|]. intros an Han.
  apply K_bind; [apply K_em_state_machine; auto|intros _]. apply K_modify.
  - intros c. cbn [em_tag_directives core set_em_writer set_em_buffer set_em_raw set_em_encoding]. destruct (is_empty _); repeat split.
  - intros c0 (H1 & H2 & H3 & H4). destruct (is_empty _); repeat split; auto; try apply H1.
Qed.
Lemma Q_needs : Q (opt_all typed_event) needs_mode_events.
Proof.
  apply Q_raw; [intros s|intros c H]; unfold needs_mode_events; cbn [core em_events set_em_writer set_em_buffer set_em_raw set_em_encoding].
  - destruct (em_events s); [repeat split|]. destruct (ready _); repeat split.
  - destruct H as (H1 & H2 & H3 & H4). destruct (em_events c) as [|x l] eqn:E; [split; [repeat split; auto; try apply H1; cbn; rewrite E; constructor|intros a [= <-]; exact Logic.I]|].
    inversion H3; subst. destruct (ready _); cbn [fst snd].
    + split; [repeat split; auto; apply H1|]. intros a [= <-]. assumption.
    + split; [|intros a [= <-]; exact Logic.I]. repeat split; auto; try apply H1. cbn. rewrite E. exact H3.
Qed.
Lemma K_emit_loop n : K (emit_loop n).
Proof.
  unfold emit_loop. induction n as [|n IH]; cbn [loopM].
  - intros c Hc. exists [], Fuel, c. split; [apply runs_fuel|]. split; [constructor|]. auto.
  - apply (Q_bind (fun _ => True)).
    + eapply Q_bind; [apply Q_needs|]. intros [e|] He; [|apply Q_ret; exact Logic.I]. apply K_bind; [apply K_emit_one, He|]. intros; apply Q_ret; exact Logic.I.
    + intros [[]|b] _; [exact IH|apply Q_ret; exact Logic.I].
Qed.
Lemma K_emit e : typed_event e -> K (emit e).
Proof.
  intros He.
  assert (H : K (enqueue e ;; (s <- get ;; emit_loop (S (length (em_events s)))))).
  { unfold enqueue. apply K_bind.
    - apply K_modify; [jinner|]. intros c0 (H1 & H2 & H3 & H4). repeat split; auto; try apply H1.
      cbn [em_events set_em_events core set_em_writer set_em_buffer set_em_raw set_em_encoding]. apply Forall_app. auto.
    - intros _. apply Q_get; [reflexivity|]. intros s _. apply K_emit_loop. }
  intros c N. destruct (H c N) as (d & r & c' & R & N'). exists d, r, c'. split; [|exact N'].
  exact (runs_ext _ _ _ _ _ _ (fun s => eq_sym (emit_eq e s)) R).
Qed.
End chars.
