(** RecodeScan.v -- every function of the scanner, in the judgement of Recode.v (proofs as in ChunkScan.v). *)
From Coq Require Import Lia ZifyBool ZifyNat ZifyN Bool.
From Verif Require Import Base Utf Chars State Reader Scanner Parser Wp ReadFacts Recode.
Open Scope N_scope.

Section scan.
Variable E : encoding.
Notation S k m q := (Sim E k%nat m q%nat).
Notation SS := Datatypes.S.

Lemma S_scan_error {A} k a b c q : S k (@scan_error A a b c) q.
Proof. unfold scan_error. eapply S_bind; [apply S_gets; reflexivity|]. intros m. apply S_fail. Qed.
(** Looking at the state. *)
Ltac vrew V :=
  repeat match goal with
  | |- context [bget ?i (wr ?x ?s)] => rewrite (V i) by lia
  end.
Ltac view := let s := fresh "s" in let x := fresh "x" in let V := fresh "V" in
  intros s x V; cbv beta; unfold at_document_indicator, plain_stop, plain_bad_colon, plain_start; vrew V; reflexivity.
Ltac zed := cbv beta iota zeta; lia.
(** One step; calls are looked up in the hint base [ss] with their least requirement. *)
Ltac call := first [solve [eauto 2 with ss] | eapply S_use; [solve [eauto 2 with ss]|zed]].
Ltac step :=
  cbv beta iota zeta;
  lazymatch goal with
  | |- Sim _ _ (bind get _) _ => apply S_get; [view|intros ?]
  | |- Sim _ _ (bind (bind _ _) _) _ => eapply S_bind with (q := fun _ => O)
  | |- Sim _ _ (bind (if _ then _ else _) _) _ => eapply S_bind with (q := fun _ => O); [|intros ?]
  | |- Sim _ _ (bind (when _ _) _) _ => eapply S_bind with (q := fun _ => O); [|intros ?]
  | |- Sim _ _ (bind (match _ with _ => _ end) _) _ => eapply S_bind with (q := fun _ => O); [|intros ?]
  | |- Sim _ _ (bind _ _) _ => eapply S_bind; [call|intros ?]
  | |- Sim _ _ (ret _) _ => apply S_ret; zed
  | |- Sim _ _ (fail _) _ => apply S_fail
  | |- Sim _ _ (scan_error _ _ _) _ => apply S_scan_error
  | |- Sim _ _ (panics _) _ => apply S_panics
  | |- Sim _ _ (when ?b _) _ => unfold when
  | |- Sim _ _ (if ?b then _ else _) _ => destruct b
  | |- Sim _ _ (match ?b with _ => _ end) _ => destruct b
  | |- Sim ?E ?K _ _ => eapply (S_weak E K K); [call|apply le_n|intros; zed]
  end.
Ltac ss := repeat step.

Lemma S_gets_pos k : S k (gets pos) (fun _ => k). Proof. apply S_gets. reflexivity. Qed.
Lemma S_gets_fl k : S k (gets flow_level) (fun _ => k). Proof. apply S_gets. reflexivity. Qed.
Hint Resolve S_gets_pos S_gets_fl S_cache S_skip_char S_read_char S_skip_line_break S_read_line_break : ss.

Lemma S_skip_chars n : forall k, S (n + k) (skip_chars n) (fun _ => k).
Proof. induction n as [|n IH]; intros k; cbn [skip_chars]; [apply S_ret; lia|]. cbn [plus]. eapply S_bind; [apply S_skip_char|]. intros ?; cbv beta. apply IH. Qed.
Lemma S_skip_while c : (forall s x, same_view 1 s (wr x s) -> c (wr x s) = c s) -> S 1 (skip_while c) (fun _ => 1).
Proof.
  intros H. unfold skip_while. apply S_loop. intros ?; cbv beta. apply S_get; [intros s x V; rewrite (H s x V); reflexivity|]. intros s. ss.
Qed.
Lemma S_read_while c str : (forall s x, same_view 1 s (wr x s) -> c (wr x s) = c s) -> S 1 (read_while c str) (fun _ => 1).
Proof.
  intros H. unfold read_while. apply S_loop. intros t. apply S_get; [intros s x V; rewrite (H s x V); reflexivity|]. intros s. ss.
Qed.
Hint Extern 3 (Sim _ _ (skip_while _) _) => (apply S_skip_while; view) : ss.
Hint Extern 3 (Sim _ _ (read_while _ _) _) => (apply S_read_while; view) : ss.
Lemma S_push_token k d a b : S k (push_token d a b) (fun _ => k). Proof. apply S_modify; reflexivity. Qed.
Lemma S_set_ska k b : S k (modify (set_simple_key_allowed b)) (fun _ => k). Proof. apply S_modify; reflexivity. Qed.
Lemma S_set_tok k (f : sst -> sst) : (forall s x, f (wr x s) = wr x (f s)) -> (forall s, rof (f s) = rof s) -> S k (modify f) (fun _ => k). Proof. apply S_modify. Qed.
Ltac modi :=
  apply S_modify; [let s := fresh in let x := fresh in intros s x | let s := fresh in intros s]; try reflexivity;
  repeat match goal with |- context [flow_level (wr ?x ?s)] => change (flow_level (wr x s)) with (flow_level s) end;
  repeat match goal with |- context [if ?b then _ else _] => destruct b end; reflexivity.
Hint Extern 3 (Sim _ _ (modify _) _) => modi : ss.
Hint Resolve S_push_token S_set_ska : ss.
Lemma S_insert_token k n t : S k (insert_token n t) (fun _ => k).
Proof. apply S_pure. intros s x. unfold insert_token. change (tokens_parsed (wr x s)) with (tokens_parsed s). change (tokens (wr x s)) with (tokens s).
  destruct (n <? tokens_parsed s); [split; reflexivity|]. destruct (Nat.leb _ _); split; reflexivity. Qed.
Lemma S_stale k : S k stale_simple_keys (fun _ => k).
Proof. apply S_pure. intros s x. unfold stale_simple_keys. change (pos (wr x s)) with (pos s). change (simple_keys (wr x s)) with (simple_keys s).
  destruct (stale_keys _ _) as [ks [m|]]; split; reflexivity. Qed.
Lemma S_remove k : S k remove_simple_key (fun _ => k).
Proof. apply S_pure. intros s x. unfold remove_simple_key. change (pos (wr x s)) with (pos s). change (simple_keys (wr x s)) with (simple_keys s).
  destruct (simple_keys s) as [|a r]; [split; reflexivity|]. destruct (sk_possible a && sk_required a); split; reflexivity. Qed.
Hint Resolve S_insert_token S_stale S_remove : ss.
Lemma S_save k : S k save_simple_key (fun _ => k).
Proof.
  unfold save_simple_key. apply S_get; [intros; reflexivity|]. intros s. cbv zeta. destruct (simple_key_allowed s); [|apply S_ret; lia].
  eapply S_bind; [apply S_remove|]. intros ?; cbv beta. apply S_pure. intros t x. change (simple_keys (wr x t)) with (simple_keys t). destruct (simple_keys t); split; reflexivity.
Qed.
Lemma S_increase k : S k increase_flow_level (fun _ => k). Proof. unfold increase_flow_level. ss. Qed.
Lemma S_decrease k : S k decrease_flow_level (fun _ => k).
Proof. unfold decrease_flow_level. apply S_modify; [intros s x; change (flow_level (wr x s)) with (flow_level s); destruct (flow_level s =? 0); reflexivity|intros s; destruct (flow_level s =? 0); reflexivity]. Qed.
Lemma S_unroll k c : S k (unroll_indent c) (fun _ => k).
Proof.
  apply S_pure. intros s x. unfold unroll_indent. change (flow_level (wr x s)) with (flow_level s). destruct (negb _); [split; reflexivity|].
  change (unroll_go c (indent (wr x s)) (indents (wr x s)) (pos (wr x s)) (tokens (wr x s))) with (unroll_go c (indent s) (indents s) (pos s) (tokens s)).
  destruct (unroll_go _ _ _ _ _) as [[[p i] st] tk]. destruct p; split; reflexivity.
Qed.
Hint Resolve S_save S_increase S_decrease S_unroll : ss.
Lemma S_roll k a b c d : S k (roll_indent a b c d) (fun _ => k).
Proof. unfold roll_indent. apply S_get; [intros; reflexivity|]. intros s. destruct (negb _); [ss|]. destruct (indent s <? a)%Z; [|ss].
  eapply S_bind; [call|]. intros ?; cbv beta. eapply (S_bind _ _ _ _ (fun _ => k)); [destruct (a <=? 2147483647)%Z; ss|]. intros ?; cbv beta. ss. Qed.
Hint Resolve S_roll : ss.
Lemma S_fetch_indicator n d k : S (n + k) (fetch_indicator n d) (fun _ => k).
Proof. unfold fetch_indicator. eapply S_bind; [apply S_gets_pos|]. intros a. eapply S_bind; [apply S_skip_chars|]. intros ?; cbv beta. ss. Qed.
Lemma S_fetch_indicator1 d : S 1 (fetch_indicator 1 d) (fun _ => 0). Proof. apply (S_fetch_indicator 1 d 0). Qed.
Lemma S_fetch_indicator3 d : S 3 (fetch_indicator 3 d) (fun _ => 0). Proof. apply (S_fetch_indicator 3 d 0). Qed.
Hint Resolve S_fetch_indicator1 S_fetch_indicator3 : ss.
Lemma S_stream_end : S 0 fetch_stream_end (fun _ => 0).
Proof.
  unfold fetch_stream_end. eapply (S_bind _ _ _ _ (fun _ => O)).
  { apply S_modify; [intros s x; change (pos (wr x s)) with (pos s); destruct (m_col (pos s) =? 0); reflexivity|intros s; destruct (m_col (pos s) =? 0); reflexivity]. }
  intros ?; cbv beta. ss.
Qed.
Hint Resolve S_stream_end : ss.
Lemma S_doc_indicator d : S 3 (fetch_document_indicator d) (fun _ => 0). Proof. unfold fetch_document_indicator. ss. Qed.
Lemma S_fcs d : S 1 (fetch_flow_collection_start d) (fun _ => 0). Proof. unfold fetch_flow_collection_start. ss. Qed.
Lemma S_fce d : S 1 (fetch_flow_collection_end d) (fun _ => 0). Proof. unfold fetch_flow_collection_end. ss. Qed.
Lemma S_fe : S 1 fetch_flow_entry (fun _ => 0). Proof. unfold fetch_flow_entry. ss. Qed.
Hint Extern 1 (Sim _ _ (bind (if _ then _ else _) _) _) => fail : ss.
Ltac ifk kk := eapply (S_bind _ _ _ _ (fun _ => kk)); [|intros ?].
Lemma S_be : S 1 fetch_block_entry (fun _ => 0).
Proof. unfold fetch_block_entry. step. ifk 1%nat; [ss|]. ss. Qed.
Lemma S_key : S 1 fetch_key (fun _ => 0).
Proof. unfold fetch_key. step. ifk 1%nat; [ss|]. ss. Qed.
Lemma S_value : S 1 fetch_value (fun _ => 0).
Proof.
  unfold fetch_value. step. destruct (simple_keys s) as [|k r]; [ss|]. ifk 1%nat; [|ss]. destruct (sk_possible k).
  - ss.
  - ifk 1%nat; [ss|]. ss.
Qed.
Hint Resolve S_doc_indicator S_fcs S_fce S_fe S_be S_key S_value : ss.
Lemma S_to_next : S 0 scan_to_next_token (fun _ => 0).
Proof.
  unfold scan_to_next_token. apply S_loop. intros ?. step. step. ifk 0%nat; [ss|]. step. step. step. ifk 1%nat; [ss|]. ss.
Qed.
Hint Resolve S_to_next : ss.

(** ** Directives, anchors, tags *)
Lemma S_directive_name m : S 0 (scan_directive_name m) (fun _ => 1).
Proof. unfold scan_directive_name. ss. Qed.
Ltac lk kk q := eapply (S_bind _ kk _ _ q); [apply S_loop; intros ?|intros ?].
Lemma S_version_number m : S 0 (scan_version_directive_number m) (fun _ => 1).
Proof. unfold scan_version_directive_number. step. lk 1%nat (fun _ : N * N => 1%nat); ss. Qed.
Hint Resolve S_directive_name S_version_number : ss.
Lemma S_version_value m : S 0 (scan_version_directive_value m) (fun _ => 1).
Proof. unfold scan_version_directive_value. ss. Qed.
Lemma S_tag_handle d m : S 0 (scan_tag_handle d m) (fun _ => 0).
Proof. unfold scan_tag_handle. ss. Qed.
Lemma S_skip_chars3 : S 3 (skip_chars 3) (fun _ => 0). Proof. apply (S_skip_chars 3 0). Qed.
Hint Resolve S_version_value S_tag_handle S_skip_chars3 : ss.
Lemma S_uri_escapes d m str : S 0 (scan_uri_escapes d m str) (fun _ => 0).
Proof.
  unfold scan_uri_escapes. apply S_loop. intros [w t]. step. step. destruct (negb _); [ss|]. destruct (as_hex _) as [h|]; [|ss]. destruct (as_hex _) as [l|]; [|ss]. cbv zeta.
  eapply (S_bind _ _ _ _ (fun _ => 3%nat)); [ss|intros ?]. ss.
Qed.
Hint Resolve S_uri_escapes : ss.
Lemma S_tag_uri u d h m : S 0 (scan_tag_uri u d h m) (fun _ => 1).
Proof.
  unfold scan_tag_uri. cbv zeta. step. lk 1%nat (fun _ : str * N => 1%nat).
  - destruct a0 as [t l]. ss.
  - ss.
Qed.
Hint Resolve S_tag_uri : ss.
Lemma S_tag_value m : S 0 (scan_tag_directive_value m) (fun _ => 1).
Proof. unfold scan_tag_directive_value. ss. Qed.
Hint Resolve S_tag_value : ss.
Lemma S_directive : S 1 scan_directive (fun _ => 0).
Proof.
  unfold scan_directive. step. step. step. eapply (S_bind _ _ _ _ (fun _ => 0%nat)); [|intros ?].
  - destruct (str_eqb _ _); [ss|]. destruct (str_eqb _ _); ss.
  - step. step. step. step. ifk 1%nat; ss.
Qed.
Hint Resolve S_directive : ss.
Lemma S_fetch_directive : S 1 fetch_directive (fun _ => 0).
Proof. unfold fetch_directive. ss. Qed.
Lemma S_anchor al : S 1 (scan_anchor al) (fun _ => 0).
Proof. unfold scan_anchor. ss. Qed.
Lemma S_tag : S 1 scan_tag (fun _ => 0).
Proof.
  unfold scan_tag. step. step. step. eapply (S_bind _ _ _ _ (fun _ => 0%nat)); [ss|intros [h u]]. step. step. ifk 0%nat; ss.
Qed.
Hint Resolve S_fetch_directive S_anchor S_tag : ss.

(** ** Block scalars *)
Lemma S_breaks i b m e : S 0 (scan_block_scalar_breaks i b m e) (fun _ => 1).
Proof.
  unfold scan_block_scalar_breaks. step. lk 0%nat (fun _ : Z * str * mark => 1%nat); [|ss].
  destruct a0 as [[mx bs] em]. ss.
Qed.
Hint Resolve S_breaks : ss.
Lemma S_header_digit m : S 1 (scan_block_header_digit m) (fun _ => 0). Proof. unfold scan_block_header_digit. ss. Qed.
Hint Resolve S_header_digit : ss.
Lemma S_header m : S 1 (scan_block_header m) (fun _ => 0). Proof. unfold scan_block_header. ss. Qed.
Hint Resolve S_header : ss.
Lemma S_lines l m i t e : S 1 (block_scalar_lines l m i t e) (fun _ => 0).
Proof.
  unfold block_scalar_lines. lk 1%nat (fun _ : str * str * str * bool * Z * mark => 1%nat); [|ss].
  destruct a as [[[[[a1 a2] a3] a4] a5] a6]. ss.
Qed.
Hint Resolve S_lines : ss.
Lemma S_block_scalar l : S 1 (scan_block_scalar l) (fun _ => 0).
Proof.
  unfold scan_block_scalar. step. step. step. step. destruct a2 as [ch inc]. step. step. step. ifk 1%nat; [ss|]. step. ifk 1%nat; [ss|]. ss.
Qed.
Hint Resolve S_block_scalar : ss.

(** ** Quoted scalars *)
Lemma hex_value_view n : forall (l l' : list char) acc, (forall i, (i < n)%nat -> nth_error l' i = nth_error l i) -> hex_value n l' acc = hex_value n l acc.
Proof.
  induction n as [|n IH]; intros l l' acc H; [reflexivity|]. cbn [hex_value]. pose proof (H O ltac:(lia)) as H0. cbn in H0.
  destruct l as [|c l], l' as [|c' l']; cbn in H0; try discriminate; [reflexivity|]. injection H0 as ->. destruct (is_hex_c c); [|reflexivity].
  apply IH. intros i Hi. exact (H (SS i) ltac:(lia)).
Qed.
Lemma S_escape m str : S 2 (scan_escape m str) (fun _ => 0).
Proof.
  unfold scan_escape. step. destruct (bget 1 s) as [c|]; [|ss]. destruct (escape_code c) as [[ch|n]|]; [ss| |ss]. step. step. step.
  apply S_get. { intros t x V. rewrite (hex_value_view n (buffer t) (buffer (wr x t)) 0 V). reflexivity. }
  intros t. destruct (hex_value _ _ _); [|ss]. destruct (char_from_u32 _); [|ss]. eapply S_bind; [apply (S_use E (n + 0)); [apply S_skip_chars|lia]|]. intros ?. ss.
Qed.
Hint Resolve S_escape : ss.
Lemma S_flow_text b m str : S 2 (flow_scalar_text b m str) (fun _ => 0).
Proof. unfold flow_scalar_text. apply S_loop. intros t. ss. Qed.
Lemma S_flow_blanks a b c d : S 1 (flow_scalar_blanks a b c d) (fun _ => 1).
Proof. unfold flow_scalar_blanks. apply S_loop. intros [[[a1 a2] a3] a4]. ss. Qed.
Hint Resolve S_flow_text S_flow_blanks : ss.
Lemma S_flow_scalar b : S 1 (scan_flow_scalar b) (fun _ => 0).
Proof. unfold scan_flow_scalar. step. step. lk 0%nat (fun _ : str => 1%nat); [|ss]. destruct a1 as [[[b1 b2] b3] b4]. ss. Qed.
Hint Resolve S_flow_scalar : ss.

(** ** Plain scalars *)
Lemma S_plain_text m p : S 2 (plain_text m p) (fun _ => 2).
Proof. unfold plain_text. apply S_loop. intros t. ss. Qed.
Lemma S_plain_blanks m i p : S 1 (plain_blanks m i p) (fun _ => 1).
Proof. unfold plain_blanks. apply S_loop. intros t. ss. Qed.
Hint Resolve S_plain_text S_plain_blanks : ss.
Lemma S_plain : S 0 scan_plain_scalar (fun _ => 0).
Proof. unfold scan_plain_scalar. step. cbv zeta. lk 0%nat (fun _ : plain_st => 0%nat); [|ss]. ss. Qed.
Hint Resolve S_plain : ss.

(** ** Tokens *)
Lemma S_push_scanned k m : S k m (fun _ => 0) -> S k (push_scanned m) (fun _ => 0).
Proof. intros H. unfold push_scanned. eapply S_bind; [exact H|]. intros ?. ss. Qed.
Hint Resolve S_push_scanned : ss.
Lemma S_fetch_anchor a : S 1 (fetch_anchor a) (fun _ => 0). Proof. unfold fetch_anchor. ss. Qed.
Lemma S_fetch_tag : S 1 fetch_tag (fun _ => 0). Proof. unfold fetch_tag. ss. Qed.
Lemma S_fetch_bs l : S 1 (fetch_block_scalar l) (fun _ => 0). Proof. unfold fetch_block_scalar. ss. Qed.
Lemma S_fetch_fs l : S 1 (fetch_flow_scalar l) (fun _ => 0). Proof. unfold fetch_flow_scalar. ss. Qed.
Lemma S_fetch_ps : S 0 fetch_plain_scalar (fun _ => 0). Proof. unfold fetch_plain_scalar. ss. Qed.
Hint Resolve S_fetch_anchor S_fetch_tag S_fetch_bs S_fetch_fs S_fetch_ps : ss.
Lemma S_next_token : S 0 fetch_next_token (fun _ => 0).
Proof.
  unfold fetch_next_token. eapply (S_bind _ _ _ _ (fun _ => 1%nat)); [call|]. intros ?.
  apply (S_produced E 1).
  ss.
Qed.
Hint Resolve S_next_token : ss.
Lemma S_more : S 0 fetch_more_tokens (fun _ => 0).
Proof.
  unfold fetch_more_tokens. eapply (S_bind _ _ _ _ (fun _ => 0%nat)); [|intros ?; ss].
  intros tx s x J1 J2 F1 F2. refine (S_loopM E 0 _ (fun _ => 0%nat) _ _ _ tt tx s x J1 J2 F1 F2). intros a. step. ifk 0%nat; ss.
Qed.
Hint Resolve S_more : ss.
Lemma S_scan : S 0 scan (fun _ => 0).
Proof.
  unfold scan. step. destruct (stream_end_produced s); [ss|]. ifk 0%nat; [ss|]. apply S_pure. intros t x.
  change (tokens (wr x t)) with (tokens t). destruct (tokens t) as [|tk r]; [split; reflexivity|]. cbv zeta. destruct (is_stream_end tk); split; reflexivity.
Qed.
Hint Resolve S_scan : ss.
Lemma S_scanner_next : S 0 scanner_next (fun _ => 0). Proof. unfold scanner_next. ss. Qed.
Lemma S_peek : S 0 peek (fun _ => 0). Proof. unfold peek. step. ifk 0%nat; ss. Qed.
Lemma S_set_front d : S 0 (set_front d) (fun _ => 0).
Proof. apply (S_pure E 0). intros s x. unfold set_front, modify. change (tokens (wr x s)) with (tokens s). cbn [fst snd]. destruct (tokens s); split; reflexivity. Qed.
Lemma S_skip_token : S 0 skip_token (fun _ => 0).
Proof. apply (S_pure E 0). intros s x. unfold skip_token. cbv zeta. change (tokens (set_tokens_parsed (tokens_parsed (wr x s) + 1) (set_token_available false (wr x s)))) with (tokens s).
  change (tokens (set_tokens_parsed (tokens_parsed s + 1) (set_token_available false s))) with (tokens s). destruct (tokens s); split; reflexivity. Qed.
End scan.
