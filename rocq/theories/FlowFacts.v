(** FlowFacts.v -- the scanner's flow level is the flow depth of the tokens produced so far. *)
From Coq Require Import ZifyBool ZifyNat ZifyN.
From Verif Require Import Base Utf Chars State Reader Scanner Wp ReaderFacts Spec_Tokens ScanFacts TokFacts FetchFacts FetchWp FetchLoop.

(** ** Functions that do not touch the frame, whatever their outcome *)
Definition framed {A} (m : M sst A) : Prop := forall s, frame (snd (m s)) = frame s.
Lemma framed_bind {A B} (m : M sst A) (k : A -> M sst B) : framed m -> (forall a, framed (k a)) -> framed (bind m k).
Proof. intros H1 H2 s. unfold bind. specialize (H1 s). destruct (m s) as [[a|e|p|] s1]; cbn [snd] in *; try exact H1. rewrite H2. exact H1. Qed.
Lemma framed_ret {A} (a : A) : framed (ret a). Proof. intros s. reflexivity. Qed.
Lemma framed_fail {A} e : framed (@fail sst A e). Proof. intros s. reflexivity. Qed.
Lemma framed_panics {A} p : framed (@panics sst A p). Proof. intros s. reflexivity. Qed.
Lemma framed_get : framed get. Proof. intros s. reflexivity. Qed.
Lemma framed_gets {A} (f : sst -> A) : framed (gets f). Proof. intros s. reflexivity. Qed.
Lemma framed_modify f : (forall s, frame (f s) = frame s) -> framed (modify f). Proof. intros H s. apply H. Qed.
Lemma framed_when b m : framed m -> framed (when b m). Proof. intros H. destruct b; [exact H|apply framed_ret]. Qed.
Lemma framed_loopM {A B} n (body : A -> M sst (A + B)) : (forall a, framed (body a)) -> forall a, framed (loopM n body a).
Proof.
  intros H. induction n as [|n IH]; intros a; [intros s; reflexivity|]. cbn [loopM]. apply framed_bind; [apply H|].
  intros [a'|b]; [apply IH|apply framed_ret].
Qed.
Lemma framed_loop {A B} (body : A -> M sst (A + B)) a : (forall a, framed (body a)) -> framed (loop body a).
Proof. intros H s. unfold loop. apply (framed_loopM _ body H). Qed.
Lemma framed_io {A} (f : source -> (A + ioerr) * source) : framed (io f).
Proof. intros s. unfold io. destruct (src s) as [i|]; [|reflexivity]. destruct (f i) as [[a|e] i']; reflexivity. Qed.
Lemma framed_scan_error {A} c m p : framed (@scan_error A c m p). Proof. intros s. reflexivity. Qed.
Lemma framed_skip_char : framed skip_char. Proof. intros s. unfold skip_char. destruct (buffer s); reflexivity. Qed.
Lemma framed_read_char x : framed (read_char x). Proof. intros s. unfold read_char. destruct (buffer s); reflexivity. Qed.
Lemma framed_skip_line : framed skip_line_break.
Proof. intros s. unfold skip_line_break. destruct (buffer s); [reflexivity|]. destruct (_ && _); [reflexivity|]. destruct (is_break_c c); reflexivity. Qed.
Lemma framed_read_line x : framed (read_line_break x).
Proof. intros s. unfold read_line_break. destruct (buffer s); [reflexivity|]. destruct (_ && _); [reflexivity|]. destruct (is_break_c c); reflexivity. Qed.
Lemma framed_push_char c o : framed (push_char c o).
Proof. intros s. unfold push_char. destruct (allowed_char c); reflexivity. Qed.

Create HintDb framed.
#[export] Hint Resolve framed_ret framed_fail framed_panics framed_get framed_gets framed_when framed_io framed_scan_error
  framed_skip_char framed_read_char framed_skip_line framed_read_line framed_push_char : framed.
Ltac frm := intros; repeat first
  [ progress intros
  | solve [auto with framed nocore]
  | match goal with
    | |- framed (bind _ _) => apply framed_bind
    | |- framed (loop _ _) => apply framed_loop
    | |- framed (when _ _) => apply framed_when
    | |- framed (modify _) => apply framed_modify; intros; solve [reflexivity | match goal with |- context [if ?b then _ else _] => destruct b; reflexivity end]
    | |- framed (if ?b then _ else _) => destruct b
    | |- framed (match ?x with _ => _ end) => destruct x
    | |- framed (let _ := _ in _) => cbn zeta
    end ].
Lemma framed_skip_chars n : framed (skip_chars n).
Proof. induction n; cbn [skip_chars]; frm. Qed.
Lemma framed_push8 cs : framed (push_chars_utf8 cs).
Proof. induction cs; cbn [push_chars_utf8]; frm. Qed.
Lemma framed_push16 cs : forall u, framed (push_chars_utf16 cs u).
Proof. induction cs; cbn [push_chars_utf16]; frm. Qed.
#[export] Hint Resolve framed_skip_chars framed_push8 framed_push16 : framed.
Lemma framed_cache n : framed (cache n).
Proof.
  unfold cache, update_buffer, determine_encoding, fill_loop, read_more, read_utf8_buffered, read_utf16_buffered,
    read_utf8_char_unbuffered, read_utf16_char_unbuffered, consume_m. frm.
Qed.
#[export] Hint Resolve framed_cache : framed.
Lemma framed_skip_while c : framed (skip_while c). Proof. unfold skip_while. frm. Qed.
Lemma framed_read_while c x : framed (read_while c x). Proof. unfold read_while. frm. Qed.
#[export] Hint Resolve framed_skip_while framed_read_while : framed.
Lemma framed_to_next : framed scan_to_next_token. Proof. unfold scan_to_next_token. frm. Qed.
Lemma framed_uri_esc d m x : framed (scan_uri_escapes d m x). Proof. unfold scan_uri_escapes. frm. Qed.
#[export] Hint Resolve framed_uri_esc : framed.
Lemma framed_tag_uri a b h m : framed (scan_tag_uri a b h m). Proof. unfold scan_tag_uri. cbn zeta. frm. Qed.
Lemma framed_tag_handle d m : framed (scan_tag_handle d m). Proof. unfold scan_tag_handle. frm. Qed.
#[export] Hint Resolve framed_to_next framed_tag_uri framed_tag_handle : framed.
Lemma framed_directive : framed scan_directive.
Proof. unfold scan_directive, scan_directive_name, scan_version_directive_value, scan_version_directive_number, scan_tag_directive_value. frm. Qed.
Lemma framed_anchor a : framed (scan_anchor a). Proof. unfold scan_anchor. frm. Qed.
Lemma framed_tag : framed scan_tag. Proof. unfold scan_tag. frm. Qed.
Lemma framed_bbreaks a b c d : framed (scan_block_scalar_breaks a b c d). Proof. unfold scan_block_scalar_breaks. frm. Qed.
#[export] Hint Resolve framed_bbreaks : framed.
Lemma framed_block l : framed (scan_block_scalar l).
Proof. unfold scan_block_scalar, scan_block_header, scan_block_header_digit, block_scalar_lines. frm. Qed.
Lemma framed_escape m x : framed (scan_escape m x). Proof. unfold scan_escape. frm. Qed.
#[export] Hint Resolve framed_escape : framed.
Lemma framed_flow x : framed (scan_flow_scalar x).
Proof. unfold scan_flow_scalar, flow_scalar_text, flow_scalar_blanks. frm. Qed.
Lemma framed_plain : framed scan_plain_scalar.
Proof. unfold scan_plain_scalar, plain_text, plain_blanks. frm. Qed.
#[export] Hint Resolve framed_directive framed_anchor framed_tag framed_block framed_flow framed_plain : framed.

(** ** The flow depth of the queue *)
Definition G (n : N) (s : sst) : Prop := flow_depth n (tokens s) = flow_level s.
Definition Gp {A} (m : M sst A) : Prop := forall n s, G n s ->
  match m s with (Ok _, s') | (Err _, s') => G n s' | _ => True end.
Lemma frame_tf s s' : frame s' = frame s -> tokens s' = tokens s /\ flow_level s' = flow_level s.
Proof. unfold frame. intros H. injection H. auto. Qed.
Lemma Gp_framed {A} (m : M sst A) : framed m -> Gp m.
Proof.
  intros H n s HG. specialize (H s). destruct (m s) as [[a|e|p|] s1]; cbn [snd] in H; auto;
    destruct (frame_tf _ _ H) as [H1 H2]; unfold G; rewrite H1, H2; exact HG.
Qed.
Lemma Gp_bind {A B} (m : M sst A) (k : A -> M sst B) : Gp m -> (forall a, Gp (k a)) -> Gp (bind m k).
Proof.
  intros H1 H2 n s HG. specialize (H1 n s HG). unfold bind. destruct (m s) as [[a|e|p|] s1]; auto. apply H2, H1.
Qed.
Lemma Gp_same {A} (m : M sst A) : (forall s, tokens (snd (m s)) = tokens s /\ flow_level (snd (m s)) = flow_level s) -> Gp m.
Proof. intros H n s HG. specialize (H s). destruct (m s) as [[a|e|p|] s1]; cbn [snd] in H; auto; unfold G; destruct H as [-> ->]; exact HG. Qed.
Definition neutral (d : token_data) : Prop :=
  match d with TFlowSequenceStart | TFlowMappingStart | TFlowSequenceEnd | TFlowMappingEnd => False | _ => True end.
Lemma flow_depth_app n a b : flow_depth n (a ++ b) = flow_depth (flow_depth n a) b.
Proof. revert n. induction a as [|t a IH]; intros n; cbn [flow_depth app]; [reflexivity|]. destruct (t_data t); apply IH. Qed.
Lemma flow_depth_neutral n t : neutral (t_data t) -> flow_depth n [t] = n.
Proof. cbn [flow_depth]. destruct (t_data t); cbn; intros H; try reflexivity; contradiction. Qed.
Lemma Gp_push d a b : neutral d -> Gp (push_token d a b).
Proof.
  intros H n s HG. unfold push_token, modify, G in *. cbn [tokens flow_level set_tokens]. rewrite flow_depth_app, flow_depth_neutral; assumption.
Qed.
Lemma Gp_insert k d m : neutral d -> Gp (insert_token k (Mk_token d m m)).
Proof.
  intros H n s HG. unfold insert_token, G in *. destruct (k <? tokens_parsed s); [exact Logic.I|]. destruct (Nat.leb _ _); [|exact Logic.I].
  cbn [tokens flow_level set_tokens]. set (j := N.to_nat (k - tokens_parsed s)).
  rewrite flow_depth_app. cbn [flow_depth t_data].
  assert (HG' : flow_depth (flow_depth n (firstn j (tokens s))) (skipn j (tokens s)) = flow_level s) by (rewrite <- flow_depth_app, firstn_skipn; exact HG).
  destruct d; cbn in H; try contradiction; exact HG'.
Qed.
Lemma Gp_remove : Gp remove_simple_key.
Proof. apply Gp_same. intros s. unfold remove_simple_key. destruct (simple_keys s); [auto|]. destruct (_ && _); auto. Qed.
Lemma Gp_save : Gp save_simple_key.
Proof.
  apply Gp_bind; [apply Gp_framed, framed_get|]. intros s. destruct (simple_key_allowed s); [|apply Gp_framed, framed_ret].
  apply Gp_bind; [apply Gp_remove|]. intros _. apply Gp_same. intros s1. destruct (simple_keys s1); auto.
Qed.
Lemma Gp_stale : Gp stale_simple_keys.
Proof. apply Gp_same. intros s. unfold stale_simple_keys. destruct (stale_keys _ _) as [ks [m|]]; auto. Qed.
Lemma unroll_depth col : forall st ind m toks n,
  flow_depth n (snd (unroll_go col ind st m toks)) = flow_depth n toks.
Proof.
  induction st as [|i st IH]; intros ind m toks n; cbn [unroll_go]; destruct (col <? ind)%Z; cbn [snd]; auto.
  - rewrite flow_depth_app, flow_depth_neutral; [reflexivity|exact Logic.I].
  - rewrite IH, flow_depth_app, flow_depth_neutral; [reflexivity|exact Logic.I].
Qed.
Lemma Gp_unroll col : Gp (unroll_indent col).
Proof.
  intros n s HG. unfold unroll_indent. destruct (negb _); [exact HG|].
  pose proof (unroll_depth col (indents s) (indent s) (pos s) (tokens s) n) as H.
  destruct (unroll_go col (indent s) (indents s) (pos s) (tokens s)) as [[[p i] st] toks]. cbn [snd] in H.
  destruct p; [exact Logic.I|]. unfold G. cbn [tokens flow_level set_tokens set_indents set_indent]. rewrite H. exact HG.
Qed.
Lemma Gp_roll col num d m : neutral d -> Gp (roll_indent col num d m).
Proof.
  intros H. apply Gp_bind; [apply Gp_framed, framed_get|]. intros s. destruct (negb _); [apply Gp_framed, framed_ret|].
  destruct (_ <? _)%Z; [|apply Gp_framed, framed_ret].
  apply Gp_bind; [apply Gp_same; auto|intros _]. apply Gp_bind; [destruct (_ <=? _)%Z; apply Gp_framed; auto with framed|intros _].
  apply Gp_bind; [apply Gp_same; auto|intros _]. destruct num; [apply Gp_insert, H|apply Gp_push, H].
Qed.
Lemma Gp_ska f : (forall s, exists v, f s = set_simple_key_allowed v s) -> Gp (modify f).
Proof. intros H. apply Gp_same. intros s. unfold modify. destruct (H s) as [v Hv]. cbn [snd]. rewrite Hv. auto. Qed.
Lemma Gp_indicator n d : neutral d -> Gp (fetch_indicator n d).
Proof.
  intros H. unfold fetch_indicator. apply Gp_bind; [apply Gp_framed; auto with framed|intros a].
  apply Gp_bind; [apply Gp_framed; auto with framed|intros _]. apply Gp_bind; [apply Gp_framed; auto with framed|intros b]. apply Gp_push, H.
Qed.
Lemma Gp_push_scanned m : framed m -> (forall s x s', m s = (Ok x, s') -> neutral (t_data x)) -> Gp (push_scanned m).
Proof.
  intros H Hn n s HG. unfold push_scanned, bind. pose proof (Gp_framed m H n s HG) as H1.
  destruct (m s) as [[x|e|p|] s1] eqn:E; auto. unfold modify, G in *. cbn [tokens flow_level set_tokens].
  rewrite flow_depth_app, flow_depth_neutral; [exact H1|eapply Hn, E].
Qed.

Lemma neutral_anchor al s x s' : scan_anchor al s = (Ok x, s') -> neutral (t_data x).
Proof. unfold scan_anchor. intros H. shape; cbn [t_data neutral]; try exact Logic.I; destruct al; exact Logic.I. Qed.
Lemma neutral_directive s x s' : scan_directive s = (Ok x, s') -> neutral (t_data x).
Proof. unfold scan_directive. intros H. shape; cbn [t_data neutral]; exact Logic.I. Qed.
Lemma neutral_tag s x s' : scan_tag s = (Ok x, s') -> neutral (t_data x).
Proof. unfold scan_tag. intros H. shape; cbn [t_data neutral]; exact Logic.I. Qed.
Lemma neutral_block li s x s' : scan_block_scalar li s = (Ok x, s') -> neutral (t_data x).
Proof. unfold scan_block_scalar. intros H. shape; cbn [t_data neutral]; exact Logic.I. Qed.
Lemma neutral_flow li s x s' : scan_flow_scalar li s = (Ok x, s') -> neutral (t_data x).
Proof. unfold scan_flow_scalar. intros H. shape; cbn [t_data neutral]; exact Logic.I. Qed.
Lemma neutral_plain s x s' : scan_plain_scalar s = (Ok x, s') -> neutral (t_data x).
Proof. unfold scan_plain_scalar. intros H. shape; cbn [t_data neutral]; exact Logic.I. Qed.

Ltac gp := repeat first
  [ progress intros
  | solve [apply Gp_framed; auto with framed nocore]
  | solve [apply Gp_remove | apply Gp_save | apply Gp_stale | apply Gp_unroll | apply Gp_ska; eauto]
  | solve [apply Gp_roll; exact Logic.I | apply Gp_push; exact Logic.I | apply Gp_insert; exact Logic.I | apply Gp_indicator; exact Logic.I]
  | solve [apply Gp_push_scanned; [auto with framed nocore|first [exact (neutral_anchor _) | exact neutral_directive | exact neutral_tag | exact (neutral_block _) | exact (neutral_flow _) | exact neutral_plain]]]
  | apply Gp_bind
  | match goal with
    | |- Gp (if ?b then _ else _) => destruct b
    | |- Gp (match ?x with _ => _ end) => destruct x
    end ].
Lemma Gp_flow_start d : d = TFlowSequenceStart \/ d = TFlowMappingStart -> Gp (fetch_flow_collection_start d).
Proof.
  intros Hd. unfold fetch_flow_collection_start. apply Gp_bind; [apply Gp_save|intros _]. intros n s HG.
  unfold increase_flow_level, bind, modify, gets. cbn [flow_level set_simple_keys].
  destruct (flow_level s =? 2147483647); [exact Logic.I|]. unfold fetch_indicator, bind, gets, push_token, modify.
  set (s1 := set_simple_key_allowed true _).
  pose proof (framed_skip_chars 1 s1) as H. destruct (skip_chars 1 s1) as [[x|e|p|] s2] eqn:E; auto; cbn [snd] in H; destruct (frame_tf _ _ H) as [H1 H2].
  - unfold G in *. cbn [tokens flow_level set_tokens]. rewrite H1, H2. unfold s1. cbn [tokens flow_level set_tokens set_simple_key_allowed set_flow_level set_simple_keys].
    rewrite flow_depth_app, HG. destruct Hd as [-> | ->]; reflexivity.
  - exfalso. cbn [skip_chars] in E. unfold bind, skip_char, ret in E. destruct (buffer s1); discriminate.
Qed.
Lemma Gp_flow_end d : d = TFlowSequenceEnd \/ d = TFlowMappingEnd -> Gp (fetch_flow_collection_end d).
Proof.
  intros Hd. unfold fetch_flow_collection_end. apply Gp_bind; [apply Gp_remove|intros _]. intros n s HG.
  unfold decrease_flow_level, bind, modify. set (s0 := if flow_level s =? 0 then s else _).
  assert (H0 : flow_level s0 = flow_level s - 1 /\ tokens s0 = tokens s).
  { unfold s0. destruct (N.eqb_spec (flow_level s) 0) as [E|E]; [rewrite E; auto|split; reflexivity]. }
  unfold fetch_indicator, bind, gets, push_token, modify.
  set (s1 := set_simple_key_allowed false s0).
  pose proof (framed_skip_chars 1 s1) as H. destruct (skip_chars 1 s1) as [[x|e|p|] s2] eqn:E; auto; cbn [snd] in H; destruct (frame_tf _ _ H) as [H1 H2].
  - unfold G in *. cbn [tokens flow_level set_tokens]. rewrite H1, H2.
    change (tokens s1) with (tokens s0). change (flow_level s1) with (flow_level s0). destruct H0 as [-> ->].
    rewrite flow_depth_app, HG. destruct Hd as [-> | ->]; reflexivity.
  - exfalso. cbn [skip_chars] in E. unfold bind, skip_char, ret in E. destruct (buffer s1); discriminate.
Qed.
Lemma Gp_next : Gp fetch_next_token.
Proof.
  unfold fetch_next_token. apply Gp_bind; [apply Gp_framed; auto with framed|intros _].
  apply Gp_bind; [apply Gp_framed; auto with framed|intros s].
  destruct (negb _).
  { unfold fetch_stream_start. intros n s1 HG. unfold modify, G in *. cbn [tokens flow_level set_tokens set_stream_start_produced set_simple_key_allowed set_simple_keys set_indent].
    rewrite flow_depth_app, flow_depth_neutral; [exact HG|exact Logic.I]. }
  apply Gp_bind; [apply Gp_framed; auto with framed|intros _]. apply Gp_bind; [apply Gp_stale|intros _].
  apply Gp_bind; [apply Gp_framed; auto with framed|intros s1]. apply Gp_bind; [apply Gp_unroll|intros _].
  apply Gp_bind; [apply Gp_framed; auto with framed|intros _]. apply Gp_bind; [apply Gp_framed; auto with framed|intros s2]. cbn zeta.
  destruct (is_z _).
  { unfold fetch_stream_end. apply Gp_bind; [apply Gp_same; intros s3; unfold modify; cbn [snd]; destruct (_ =? 0); auto|intros _]. gp. }
  destruct (_ && _); [unfold fetch_directive; gp|].
  destruct (_ && _); [unfold fetch_document_indicator; gp|].
  destruct (_ && _); [unfold fetch_document_indicator; gp|].
  destruct (chk _ _); [apply Gp_flow_start; auto|].
  destruct (chk _ _); [apply Gp_flow_start; auto|].
  destruct (chk _ _); [apply Gp_flow_end; auto|].
  destruct (chk _ _); [apply Gp_flow_end; auto|].
  destruct (chk _ _); [unfold fetch_flow_entry; gp|].
  destruct (_ && _); [unfold fetch_block_entry; gp|].
  destruct (_ && _); [unfold fetch_key; gp|].
  destruct (_ && _); [unfold fetch_value; gp; apply Gp_same; auto|].
  destruct (chk _ _); [unfold fetch_anchor; gp|].
  destruct (chk _ _); [unfold fetch_anchor; gp|].
  destruct (chk _ _); [unfold fetch_tag; gp|].
  destruct (_ && _); [unfold fetch_block_scalar; gp|].
  destruct (_ && _); [unfold fetch_block_scalar; gp|].
  destruct (chk _ _); [unfold fetch_flow_scalar; gp|].
  destruct (chk _ _); [unfold fetch_flow_scalar; gp|].
  destruct (plain_start _); [unfold fetch_plain_scalar; gp|].
  gp.
Qed.
Lemma Gp_loopM {A B} (body : A -> M sst (A + B)) : (forall a, Gp (body a)) -> forall n a, Gp (loopM n body a).
Proof.
  intros H. induction n as [|n IH]; intros a; cbn [loopM]; [intros ? ? ?; exact Logic.I|].
  apply Gp_bind; [apply H|]. intros [a'|b]; [apply IH|apply Gp_framed; auto with framed].
Qed.
Lemma Gp_more : Gp fetch_more_tokens.
Proof.
  unfold fetch_more_tokens. apply Gp_bind.
  - intros n s HG. refine (Gp_loopM _ _ _ _ n s HG). intros _. apply Gp_bind; [apply Gp_framed; auto with framed|intros s1].
    apply Gp_bind; [destruct (is_empty _); [apply Gp_framed; auto with framed|apply Gp_stale]|intros _].
    apply Gp_bind; [apply Gp_framed; auto with framed|intros s2]. destruct (negb _); [apply Gp_framed; auto with framed|].
    apply Gp_bind; [apply Gp_next|intros _]. apply Gp_framed; auto with framed.
  - intros _. apply Gp_same. auto.
Qed.

(** The nesting of everything delivered and still queued is the scanner's flow level. *)
Definition GD (del : list token) (s : sst) : Prop := flow_depth 0 (del ++ tokens s) = flow_level s.
Lemma GD_G del s : GD del s <-> G (flow_depth 0 del) s.
Proof. unfold GD, G. rewrite flow_depth_app. reflexivity. Qed.
Lemma scanner_next_G del s : GD del s -> match scanner_next s with
  | (Ok (Some t), s') => GD (del ++ [t]) s'
  | (Ok None, s') => GD del s'
  | (Err _, s') => GD del s'
  | _ => True
  end.
Proof.
  intros HG. unfold scanner_next, bind, get, scan. destruct (stream_end_produced s) eqn:E; [exact HG|].
  unfold bind, get. rewrite E.
  assert (H : match (if token_available s then ret tt else fetch_more_tokens) s with
              | (Ok _, s') | (Err _, s') => GD del s'
              | _ => True end).
  { destruct (token_available s); [exact HG|]. pose proof (Gp_more (flow_depth 0 del) s (proj1 (GD_G _ _) HG)) as H.
    destruct (fetch_more_tokens s) as [[x|e|p|] s1]; auto; apply GD_G, H. }
  destruct ((if token_available s then ret tt else fetch_more_tokens) s) as [[x|e|p|] s1]; auto.
  destruct (tokens s1) as [|t r] eqn:Et; [exact Logic.I|]. cbn [ret]. unfold GD in *. rewrite Et in H.
  rewrite <- app_assoc. destruct (is_stream_end t); cbn [tokens flow_level set_stream_end_produced set_tokens_parsed set_token_available set_tokens]; exact H.
Qed.
