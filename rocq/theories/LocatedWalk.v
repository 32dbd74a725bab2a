(** LocatedWalk.v -- C57: the position of the reader is kept by everything the scanner, the parser and
    the loader do, so an error of the reader is about the place of the input that [Located] finds. *)
From Coq Require Import Lia ZifyBool ZifyNat ZifyN Bool.
From Verif Require Import Base Utf Chars State Reader Scanner Parser Document Wp ReaderFacts Utf8Facts Spec_Tokens Spec_Scanner ScanFacts ReadFacts Located.
Open Scope N_scope.

Definition kp {S A} (E : error -> S -> Prop) (m : M S A) (Q : A -> S -> Prop) (s : S) : Prop :=
  match m s with (Ok a, s') => Q a s' | (Err e, s') => E e s' | _ => True end.
Definition keep {S A} (J : S -> Prop) (E : error -> S -> Prop) (m : M S A) : Prop := forall s, J s -> kp E m (fun _ => J) s.
Lemma kp_bind {S A B} (E : error -> S -> Prop) (m : M S A) (k : A -> M S B) Q s :
  kp E m (fun a s' => kp E (k a) Q s') s -> kp E (bind m k) Q s.
Proof. unfold kp, bind. destruct (m s) as [[a|e|p|] s']; auto. Qed.
Lemma kp_weak {S A} (E : error -> S -> Prop) (m : M S A) (Q Q' : A -> S -> Prop) s : kp E m Q s -> (forall a s', Q a s' -> Q' a s') -> kp E m Q' s.
Proof. unfold kp. destruct (m s) as [[a|e|p|] s']; auto. Qed.
Lemma kp_wp {S A} (E E' : error -> S -> Prop) (m : M S A) (Q Q' : A -> S -> Prop) P s :
  wp m Q E P s -> (forall a s', Q a s' -> Q' a s') -> (forall e s', E e s' -> E' e s') -> kp E' m Q' s.
Proof. unfold wp, kp. destruct (m s) as [[a|e|p|] s']; auto. Qed.
Lemma kp_io {A} (E : error -> sst -> Prop) (f : source -> (A + ioerr) * source) (Q : A -> sst -> Prop) s i : src s = Some i ->
  (forall a i', f i = (inl a, i') -> Q a (set_src (Some i') s)) -> (forall e i', f i = (inr e, i') -> E (EIo e) (set_src (Some i') s)) -> kp E (io f) Q s.
Proof. intros Hs H1 H2. unfold kp, io. rewrite Hs. destruct (f i) as [[a|e] i']; auto. Qed.
Section rules.
Context {S : Type} (J : S -> Prop) (E : error -> S -> Prop).
Lemma R_ret {A} (a : A) : keep J E (ret a). Proof. intros s H. exact H. Qed.
Lemma R_panics {A} p : keep J E (@panics S A p). Proof. intros s H. exact Logic.I. Qed.
Lemma R_fail {A} e : (forall s, J s -> E e s) -> keep J E (@fail S A e). Proof. intros X s H. exact (X s H). Qed.
Lemma R_get : keep J E (@get S). Proof. intros s H. exact H. Qed.
Lemma R_gets {A} f : keep J E (@gets S A f). Proof. intros s H. exact H. Qed.
Lemma R_modify f : (forall s, J s -> J (f s)) -> keep J E (@modify S f). Proof. intros X s H. exact (X s H). Qed.
Lemma R_bind {A B} (m : M S A) (f : A -> M S B) : keep J E m -> (forall a, keep J E (f a)) -> keep J E (bind m f).
Proof. intros H1 H2 s H. apply kp_bind. eapply kp_weak; [exact (H1 s H)|]. intros a s' H'. exact (H2 a s' H'). Qed.
Lemma R_when b (m : M S unit) : keep J E m -> keep J E (when b m).
Proof. intros H. destruct b; [exact H|apply R_ret]. Qed.
Lemma R_loopM {A B} (body : A -> M S (A + B)) : (forall a, keep J E (body a)) -> forall n a, keep J E (loopM n body a).
Proof.
  intros H. induction n as [|n IH]; intros a; [intros s X; exact Logic.I|]. cbn [loopM]. apply R_bind; [apply H|]. intros [a'|b]; [apply IH|apply R_ret].
Qed.
Lemma R_loop_at {A B} (body : A -> M S (A + B)) (n : S -> nat) a : (forall a, keep J E (body a)) -> keep J E (fun s => loopM (n s) body a s).
Proof. intros H s X. exact (R_loopM body H _ _ _ X). Qed.
End rules.
Lemma R_loop J E {A B} (body : A -> M sst (A + B)) a : (forall a, keep J E (body a)) -> keep J E (loop body a).
Proof. intros H. unfold loop. apply R_loop_at, H. Qed.

Create HintDb jj.
Ltac direct := let s := fresh "s" in let H := fresh "H" in intros s H; unfold kp, scan_error, modify, bind, ret, get, gets, fail;
  repeat (cbv beta zeta iota; match goal with |- context [match ?x with _ => _ end] => lazymatch x with context [match _ with _ => _ end] => fail | _ => destruct x eqn:? end end); first [exact Logic.I|exact H].
Ltac j1 :=
  cbv beta zeta;
  lazymatch goal with
  | |- keep _ _ (bind _ _) => apply R_bind; [|intros ?]
  | |- keep _ _ (ret _) => apply R_ret
  | |- keep _ _ get => apply R_get
  | |- keep _ _ (gets _) => apply R_gets
  | |- keep _ _ (modify _) => apply R_modify; let s := fresh "s" in let H := fresh "H" in intros s H; try exact H;
       repeat (cbv beta zeta iota; match goal with |- context [match ?x with _ => _ end] => lazymatch x with context [match _ with _ => _ end] => fail | _ => destruct x eqn:? end end); exact H
  | |- keep _ _ (panics _) => apply R_panics
  | |- keep _ _ (fail _) => apply R_fail; intros; exact Logic.I
  | |- keep _ _ (when _ _) => apply R_when
  | |- keep _ _ (loop _ _) => apply R_loop; intros ?
  | |- keep _ _ (fun s => loopM _ _ _ s) => apply R_loop_at; intros ?
  | |- keep _ _ (loopM _ _ _) => apply R_loopM; intros ?
  | |- keep _ _ (if ?b then _ else _) => destruct b
  | |- keep _ _ (match ?b with _ => _ end) => destruct b
  | |- keep _ _ (scan_error _ _ _) => unfold scan_error
  | |- keep _ _ _ => first [solve [eauto 2 with jj] | solve [direct]]
  end.
Ltac jj := repeat j1.

(** UTF-16 is out of scope here: what is decided stays decided. *)
Section Enc16.
Variable be : bool.
Let e16 := if be then Utf16Be else Utf16Le.
Let J16 (s : sst) : Prop := enc s = e16.
Let E16 (_ : error) (s : sst) : Prop := enc s = e16.
Lemma J16_io {A} (f : source -> (A + ioerr) * source) : keep J16 E16 (io f).
Proof. intros s H. unfold kp, io. destruct (src s) as [i|]; [|exact Logic.I]. destruct (f i) as [[a|e] i']; exact H. Qed.
Lemma J16_push c off : keep J16 E16 (push_char c off).
Proof. intros s H. unfold kp, push_char. destruct (allowed_char c); exact H. Qed.
Lemma J16_push_chars cs : forall used, keep J16 E16 (push_chars_utf16 cs used).
Proof.
  induction cs as [|c cs IH]; intros used; cbn [push_chars_utf16]; [apply R_ret|]. apply R_bind; [apply R_gets|intros off]. apply R_bind; [apply J16_push|intros _].
  apply R_bind; [apply R_modify; intros s H; exact H|intros _]. apply IH.
Qed.
Lemma J16_read : keep J16 E16 (read_utf16_buffered be).
Proof.
  unfold read_utf16_buffered, read_utf16_char_unbuffered, consume_m.
  repeat (cbv beta zeta; lazymatch goal with
  | |- keep _ _ (bind _ _) => apply R_bind; [|intros ?]
  | |- keep _ _ (io _) => apply J16_io
  | |- keep _ _ (push_char _ _) => apply J16_push
  | |- keep _ _ (push_chars_utf16 _ _) => apply J16_push_chars
  | |- keep _ _ get => apply R_get
  | |- keep _ _ (gets _) => apply R_gets
  | |- keep _ _ (ret _) => apply R_ret
  | |- keep _ _ (panics _) => apply R_panics
  | |- keep _ _ (modify _) => apply R_modify; intros s H; exact H
  | |- keep _ _ (fail _) => apply R_fail; intros s H; exact H
  | |- keep _ _ (if ?b then _ else _) => destruct b
  | |- keep _ _ (match ?b with _ => _ end) => destruct b
  end).
Qed.
End Enc16.

Section Input.
(** The bytes of the input, and whether the encoding is detected. *)
Variables (B : list byte) (auto : bool).
Definition BOM8 : list byte := [239; 187; 191].
Definition JS (s : sst) : Prop :=
  match enc s with
  | EncAny => auto = true /\ offset s = 0 /\ src s <> None /\ sb s = B
  | Utf8 => exists bom tx, (bom = [] \/ auto = true /\ bom = BOM8) /\ src s <> None /\ Forall okc tx /\ B = bom ++ encode_utf8 tx ++ sb s /\ offset s = str_len tx
  | _ => auto = true /\ In (hd 0 B) [254; 255]
  end.
Definition place (s : sst) (p : string) (o : N) (v : Z) : Prop :=
  match enc s with
  | EncAny => p = "invalid byte order marker"%string /\ o = 0 /\ auto = true /\ In (hd 0 B) [239; 254; 255]
  | Utf8 => p = "input is too long"%string /\ 9223372036854775807 <= o \/
      exists bom tx rest, (bom = [] \/ auto = true /\ bom = BOM8) /\ B = bom ++ encode_utf8 tx ++ rest /\ Forall okc tx /\ o = str_len tx /\ culprit p v rest
  | _ => auto = true /\ In (hd 0 B) [254; 255]
  end.
Definition ES (e : error) (s : sst) : Prop := match e with EReader p o v => place s p o v | _ => True end.
Notation keepS := (keep JS ES).

Lemma J_read_more : keepS read_more.
Proof.
  intros s H. unfold read_more. apply kp_bind. change (kp ES (match enc s with EncAny => panics PUnreachable | Utf8 => read_utf8_buffered | Utf16Le => read_utf16_buffered false | Utf16Be => read_utf16_buffered true end) (fun _ => JS) s).
  pose proof H as H0. unfold JS in H. destruct (enc s) eqn:Ee.
  - exact Logic.I.
  - destruct H as (bom & tx & Hb & Hs & Ht & HB & Ho). eapply kp_wp; [exact (read_utf8_at s Hs)| |]; cbn beta.
    + intros a s' [x G]. unfold JS. rewrite (g_enc _ _ _ G), Ee. exists bom, (tx ++ x). split; [exact Hb|]. split; [exact (g_src _ _ _ G Hs)|]. split; [apply Forall_app; split; [exact Ht|exact (g_ok _ _ _ G)]|].
      split; [rewrite HB, (g_bytes _ _ _ G), encode_utf8_app, <- !app_assoc; reflexivity|]. rewrite (g_off _ _ _ G), Ho, str_len_app. reflexivity.
    + intros e s' [He L]. unfold ES, place. destruct e; try exact Logic.I. rewrite He, Ee. right. cbn [located] in L. destruct L as (x & rest & L1 & L2 & L3 & L4).
      exists bom, (tx ++ x), rest. split; [exact Hb|]. split; [rewrite HB, L1, encode_utf8_app, <- !app_assoc; reflexivity|]. split; [apply Forall_app; auto|]. split; [rewrite L3, Ho, str_len_app; reflexivity|exact L4].
  - pose proof (J16_read false s Ee) as X. unfold kp in *. destruct (read_utf16_buffered false s) as [[a|e|p|] s']; try exact Logic.I; unfold JS, ES, place; [|destruct e; try exact Logic.I]; rewrite X; exact H.
  - pose proof (J16_read true s Ee) as X. unfold kp in *. destruct (read_utf16_buffered true s) as [[a|e|p|] s']; try exact Logic.I; unfold JS, ES, place; [|destruct e; try exact Logic.I]; rewrite X; exact H.
Qed.
Hint Resolve J_read_more : jj.
Lemma J_fill_loop len : keepS (fill_loop len).
Proof. unfold fill_loop. jj. Qed.
Lemma J_determine s : enc s = EncAny -> JS s ->
  kp ES (o <- determine_encoding ;; match o with Some e => modify (set_enc e) ;; ret false | None => modify (set_eof true) ;; ret true end) (fun _ => JS) s.
Proof.
  intros Ee H. unfold JS in H. rewrite Ee in H. destruct H as (Ha & Ho & Hs & HB). destruct (src s) as [i|] eqn:Ei; [clear Hs|congruence].
  assert (Hsb : all_bytes i = B) by (rewrite <- HB; unfold sb; rewrite Ei; reflexivity).
  unfold determine_encoding. apply kp_bind, kp_bind. eapply kp_io; [exact Ei| |intros e i' _; exact Logic.I].
  intros l i1 Hf. apply fill_buf_bytes in Hf. destruct Hf as (Hcur & Hab & _). rewrite Hsb in Hab.
  assert (Hs1 : forall b l', l = b :: l' -> hd 0 B = b).
  { intros b l' ->. rewrite <- Hab, all_bytes_eq, Hcur. reflexivity. }
  destruct l as [|b l].
  { unfold kp, modify, bind, ret. unfold JS. cbn. rewrite Ee. split; [exact Ha|]. split; [exact Ho|]. split; [discriminate|exact Hab]. }
  specialize (Hs1 b l eq_refl).
  assert (Hbad : forall p o v s', enc s' = EncAny -> p = "invalid byte order marker"%string -> o = 0 -> In b [239; 254; 255] -> ES (EReader p o v) s').
  { intros p o v s' E1 -> -> Hin. unfold ES, place. rewrite E1, Hs1. auto. }
  destruct (N.eqb_spec b 239) as [->|Hb1].
  { apply kp_bind. eapply kp_io; [reflexivity| |intros e i' _; exact Logic.I]. intros bom i2 Hr. destruct (read_exact_bytes _ _ _ _ Hr) as (H1 & _ & _). rewrite Hab in H1.
    destruct (bytes_eqb bom [239; 187; 191]) eqn:Eq.
    - unfold kp, modify, bind, ret. unfold JS. cbn. apply str_eqb_eq in Eq. exists BOM8, []. split; [right; auto|]. split; [discriminate|]. split; [constructor|]. split; [rewrite H1, Eq; reflexivity|exact Ho].
    - unfold kp, fail. cbn beta iota. apply Hbad; [exact Ee|reflexivity|reflexivity|cbn; auto]. }
  destruct ((b =? 255) || (b =? 254)) eqn:Hb2.
  { apply kp_bind. eapply kp_io; [reflexivity| |intros e i' _; exact Logic.I]. intros bom i2 Hr.
    assert (Hin : In b [239; 254; 255]) by (apply orb_true_iff in Hb2; rewrite !N.eqb_eq in Hb2; cbn; destruct Hb2; auto).
    assert (Hin2 : In (hd 0 B) [254; 255]) by (rewrite Hs1; apply orb_true_iff in Hb2; rewrite !N.eqb_eq in Hb2; cbn; destruct Hb2; auto).
    destruct (bytes_eqb bom [255; 254]); [split; [exact Ha|exact Hin2]|]. destruct (bytes_eqb bom [254; 255]); [split; [exact Ha|exact Hin2]|].
    unfold kp, fail. cbn beta iota. apply Hbad; [exact Ee|reflexivity|reflexivity|exact Hin]. }
  unfold kp, modify, bind, ret. unfold JS. cbn. exists [], []. split; [left; reflexivity|]. split; [discriminate|]. split; [constructor|]. split; [symmetry; exact Hab|exact Ho].
Qed.
Lemma J_update_buffer len : keepS (update_buffer len).
Proof.
  intros s H. unfold update_buffer. apply kp_bind. change (kp ES (match src s with
    | None => panics PNoReadHandler
    | Some _ =>
      if Nat.leb len (length (buffer s)) then ret tt
      else
        done <- (if encoding_eqb (enc s) EncAny then
                   o <- determine_encoding ;;
                   match o with
                   | Some e => modify (set_enc e) ;; ret false
                   | None => modify (set_eof true) ;; ret true
                   end
                 else ret false) ;;
        if done : bool then ret tt
        else
          early <- fill_loop len ;;
          if early : bool then ret tt
          else
            off <- gets offset ;;
            if 9223372036854775807 <=? off
            then fail (EReader "input is too long" off (-1))
            else ret tt
    end) (fun _ => JS) s).
  destruct (src s); [|exact Logic.I]. destruct (Nat.leb len (length (buffer s))); [exact H|]. apply kp_bind.
  apply (kp_weak _ _ (fun _ => JS)).
  { destruct (encoding_eqb (enc s) EncAny) eqn:Eq; [|exact H]. apply J_determine; [apply encoding_eqb_eq, Eq|exact H]. }
  clear s H. intros done s H. destruct done; [exact H|]. apply kp_bind. eapply kp_weak; [exact (J_fill_loop len s H)|]. clear s H. intros early s H. cbn beta in *. destruct early; [exact H|].
  apply kp_bind. change (kp ES (if 9223372036854775807 <=? offset s then fail (EReader "input is too long" (offset s) (-1)) else ret tt) (fun _ => JS) s).
  destruct (N.leb_spec 9223372036854775807 (offset s)); [|exact H]. unfold kp, fail. cbn beta iota. unfold ES, place, JS in *.
  destruct (enc s); try exact H.
  - exfalso. destruct H as (_ & H & _). lia.
  - left. auto.
Qed.
Lemma J_cache len : keepS (cache len).
Proof.
  intros s H. unfold cache. apply kp_bind. change (kp ES (if Nat.leb len (length (buffer s)) then ret tt else update_buffer len) (fun _ => JS) s).
  destruct (Nat.leb len (length (buffer s))); [exact H|exact (J_update_buffer len s H)].
Qed.
Hint Resolve J_cache : jj.


(** ** The scanner *)

Lemma J_skip_char  : keepS skip_char. Proof. unfold skip_char. jj. Qed.
Hint Resolve J_skip_char : jj.

Lemma J_skip_chars (n : nat) : keepS (skip_chars n). Proof. induction n; intros; cbn [skip_chars]; jj. Qed.
Hint Resolve J_skip_chars : jj.

Lemma J_skip_line_break  : keepS skip_line_break. Proof. unfold skip_line_break. jj. Qed.
Hint Resolve J_skip_line_break : jj.

Lemma J_read_char (string : str) : keepS (read_char string). Proof. unfold read_char. jj. Qed.
Hint Resolve J_read_char : jj.

Lemma J_read_line_break (string : str) : keepS (read_line_break string). Proof. unfold read_line_break. jj. Qed.
Hint Resolve J_read_line_break : jj.

Lemma J_skip_while (cond : sst -> bool) : keepS (skip_while cond). Proof. unfold skip_while. jj. Qed.
Hint Resolve J_skip_while : jj.

Lemma J_read_while (cond : sst -> bool) (string : str) : keepS (read_while cond string). Proof. unfold read_while. jj. Qed.
Hint Resolve J_read_while : jj.

Lemma J_push_token (d : token_data) (a : mark) (b : mark) : keepS (push_token d a b). Proof. unfold push_token. jj. Qed.
Hint Resolve J_push_token : jj.

Lemma J_insert_token (number : N) (t : token) : keepS (insert_token number t). Proof. unfold insert_token. jj. Qed.
Hint Resolve J_insert_token : jj.

Lemma J_stale_simple_keys  : keepS stale_simple_keys. Proof. unfold stale_simple_keys. jj. Qed.
Hint Resolve J_stale_simple_keys : jj.

Lemma J_remove_simple_key  : keepS remove_simple_key. Proof. unfold remove_simple_key. jj. Qed.
Hint Resolve J_remove_simple_key : jj.

Lemma J_save_simple_key  : keepS save_simple_key. Proof. unfold save_simple_key. jj. Qed.
Hint Resolve J_save_simple_key : jj.

Lemma J_increase_flow_level  : keepS increase_flow_level. Proof. unfold increase_flow_level. jj. Qed.
Hint Resolve J_increase_flow_level : jj.

Lemma J_decrease_flow_level  : keepS decrease_flow_level. Proof. unfold decrease_flow_level. jj. Qed.
Hint Resolve J_decrease_flow_level : jj.

Lemma J_roll_indent (column : Z) (number : option N) (d : token_data) (m : mark) : keepS (roll_indent column number d m). Proof. unfold roll_indent. jj. Qed.
Hint Resolve J_roll_indent : jj.

Lemma J_unroll_indent (column : Z) : keepS (unroll_indent column). Proof. unfold unroll_indent. jj. Qed.
Hint Resolve J_unroll_indent : jj.

Lemma J_fetch_stream_start  : keepS fetch_stream_start. Proof. unfold fetch_stream_start. jj. Qed.
Hint Resolve J_fetch_stream_start : jj.

Lemma J_fetch_stream_end  : keepS fetch_stream_end. Proof. unfold fetch_stream_end. jj. Qed.
Hint Resolve J_fetch_stream_end : jj.

Lemma J_fetch_indicator (n : nat) (d : token_data) : keepS (fetch_indicator n d). Proof. unfold fetch_indicator. jj. Qed.
Hint Resolve J_fetch_indicator : jj.

Lemma J_fetch_document_indicator (d : token_data) : keepS (fetch_document_indicator d). Proof. unfold fetch_document_indicator. jj. Qed.
Hint Resolve J_fetch_document_indicator : jj.

Lemma J_fetch_flow_collection_start (d : token_data) : keepS (fetch_flow_collection_start d). Proof. unfold fetch_flow_collection_start. jj. Qed.
Hint Resolve J_fetch_flow_collection_start : jj.

Lemma J_fetch_flow_collection_end (d : token_data) : keepS (fetch_flow_collection_end d). Proof. unfold fetch_flow_collection_end. jj. Qed.
Hint Resolve J_fetch_flow_collection_end : jj.

Lemma J_fetch_flow_entry  : keepS fetch_flow_entry. Proof. unfold fetch_flow_entry. jj. Qed.
Hint Resolve J_fetch_flow_entry : jj.

Lemma J_fetch_block_entry  : keepS fetch_block_entry. Proof. unfold fetch_block_entry. jj. Qed.
Hint Resolve J_fetch_block_entry : jj.

Lemma J_fetch_key  : keepS fetch_key. Proof. unfold fetch_key. jj. Qed.
Hint Resolve J_fetch_key : jj.

Lemma J_fetch_value  : keepS fetch_value. Proof. unfold fetch_value. jj. Qed.
Hint Resolve J_fetch_value : jj.

Lemma J_scan_to_next_token  : keepS scan_to_next_token. Proof. unfold scan_to_next_token. jj. Qed.
Hint Resolve J_scan_to_next_token : jj.

Lemma J_scan_directive_name (start_mark : mark) : keepS (scan_directive_name start_mark). Proof. unfold scan_directive_name. jj. Qed.
Hint Resolve J_scan_directive_name : jj.

Lemma J_scan_version_directive_number (start_mark : mark) : keepS (scan_version_directive_number start_mark). Proof. unfold scan_version_directive_number. jj. Qed.
Hint Resolve J_scan_version_directive_number : jj.

Lemma J_scan_version_directive_value (start_mark : mark) : keepS (scan_version_directive_value start_mark). Proof. unfold scan_version_directive_value. jj. Qed.
Hint Resolve J_scan_version_directive_value : jj.

Lemma J_scan_tag_handle (directive : bool) (start_mark : mark) : keepS (scan_tag_handle directive start_mark). Proof. unfold scan_tag_handle. jj. Qed.
Hint Resolve J_scan_tag_handle : jj.

Lemma J_scan_uri_escapes (directive : bool) (start_mark : mark) (string : str) : keepS (scan_uri_escapes directive start_mark string). Proof. unfold scan_uri_escapes. jj. Qed.
Hint Resolve J_scan_uri_escapes : jj.

Lemma J_scan_tag_uri (uri_char : bool) (directive : bool) (head : option str) (start_mark : mark) : keepS (scan_tag_uri uri_char directive head start_mark). Proof. unfold scan_tag_uri. jj. Qed.
Hint Resolve J_scan_tag_uri : jj.

Lemma J_scan_tag_directive_value (start_mark : mark) : keepS (scan_tag_directive_value start_mark). Proof. unfold scan_tag_directive_value. jj. Qed.
Hint Resolve J_scan_tag_directive_value : jj.

Lemma J_scan_directive  : keepS scan_directive. Proof. unfold scan_directive. jj. Qed.
Hint Resolve J_scan_directive : jj.

Lemma J_fetch_directive  : keepS fetch_directive. Proof. unfold fetch_directive. jj. Qed.
Hint Resolve J_fetch_directive : jj.

Lemma J_scan_anchor (alias : bool) : keepS (scan_anchor alias). Proof. unfold scan_anchor. jj. Qed.
Hint Resolve J_scan_anchor : jj.

Lemma J_scan_tag  : keepS scan_tag. Proof. unfold scan_tag. jj. Qed.
Hint Resolve J_scan_tag : jj.

Lemma J_scan_block_scalar_breaks (ind : Z) (breaks : str) (start_mark : mark) (end_mark : mark) : keepS (scan_block_scalar_breaks ind breaks start_mark end_mark). Proof. unfold scan_block_scalar_breaks. jj. Qed.
Hint Resolve J_scan_block_scalar_breaks : jj.

Lemma J_scan_block_header_digit (start_mark : mark) : keepS (scan_block_header_digit start_mark). Proof. unfold scan_block_header_digit. jj. Qed.
Hint Resolve J_scan_block_header_digit : jj.

Lemma J_scan_block_header (start_mark : mark) : keepS (scan_block_header start_mark). Proof. unfold scan_block_header. jj. Qed.
Hint Resolve J_scan_block_header : jj.

Lemma J_block_scalar_lines (literal : bool) (start_mark : mark) (ind : Z) (trailing_breaks : str) (end_mark : mark) : keepS (block_scalar_lines literal start_mark ind trailing_breaks end_mark). Proof. unfold block_scalar_lines. jj. Qed.
Hint Resolve J_block_scalar_lines : jj.

Lemma J_scan_block_scalar (literal : bool) : keepS (scan_block_scalar literal). Proof. unfold scan_block_scalar. jj. Qed.
Hint Resolve J_scan_block_scalar : jj.

Lemma J_scan_escape (start_mark : mark) (string : str) : keepS (scan_escape start_mark string). Proof. unfold scan_escape. jj. Qed.
Hint Resolve J_scan_escape : jj.

Lemma J_flow_scalar_text (single : bool) (start_mark : mark) (string : str) : keepS (flow_scalar_text single start_mark string). Proof. unfold flow_scalar_text. jj. Qed.
Hint Resolve J_flow_scalar_text : jj.

Lemma J_flow_scalar_blanks (leading_break : str) (trailing_breaks : str) (whitespaces : str) (leading_blanks : bool) : keepS (flow_scalar_blanks leading_break trailing_breaks whitespaces leading_blanks). Proof. unfold flow_scalar_blanks. jj. Qed.
Hint Resolve J_flow_scalar_blanks : jj.

Lemma J_scan_flow_scalar (single : bool) : keepS (scan_flow_scalar single). Proof. unfold scan_flow_scalar. jj. Qed.
Hint Resolve J_scan_flow_scalar : jj.

Lemma J_plain_text (start_mark : mark) (p : plain_st) : keepS (plain_text start_mark p). Proof. unfold plain_text. jj. Qed.
Hint Resolve J_plain_text : jj.

Lemma J_plain_blanks (start_mark : mark) (ind : Z) (p : plain_st) : keepS (plain_blanks start_mark ind p). Proof. unfold plain_blanks. jj. Qed.
Hint Resolve J_plain_blanks : jj.

Lemma J_scan_plain_scalar  : keepS scan_plain_scalar. Proof. unfold scan_plain_scalar. jj. Qed.
Hint Resolve J_scan_plain_scalar : jj.

Lemma J_push_scanned (m : M sst token) : keepS m -> keepS (push_scanned m). Proof. intros; unfold push_scanned; jj; assumption. Qed.
Hint Extern 2 (keepS (push_scanned _)) => (apply J_push_scanned; solve [jj]) : jj.

Lemma J_fetch_anchor (alias : bool) : keepS (fetch_anchor alias). Proof. unfold fetch_anchor. jj. Qed.
Hint Resolve J_fetch_anchor : jj.

Lemma J_fetch_tag  : keepS fetch_tag. Proof. unfold fetch_tag. jj. Qed.
Hint Resolve J_fetch_tag : jj.

Lemma J_fetch_block_scalar (literal : bool) : keepS (fetch_block_scalar literal). Proof. unfold fetch_block_scalar. jj. Qed.
Hint Resolve J_fetch_block_scalar : jj.

Lemma J_fetch_flow_scalar (single : bool) : keepS (fetch_flow_scalar single). Proof. unfold fetch_flow_scalar. jj. Qed.
Hint Resolve J_fetch_flow_scalar : jj.

Lemma J_fetch_plain_scalar  : keepS fetch_plain_scalar. Proof. unfold fetch_plain_scalar. jj. Qed.
Hint Resolve J_fetch_plain_scalar : jj.

Lemma J_fetch_next_token  : keepS fetch_next_token. Proof. unfold fetch_next_token. jj. Qed.
Hint Resolve J_fetch_next_token : jj.

Lemma J_fetch_more_tokens  : keepS fetch_more_tokens. Proof. unfold fetch_more_tokens. jj. Qed.
Hint Resolve J_fetch_more_tokens : jj.

Lemma J_scan  : keepS scan. Proof. unfold scan. jj. Qed.
Hint Resolve J_scan : jj.

Lemma J_scanner_next  : keepS scanner_next. Proof. unfold scanner_next. jj. Qed.
Hint Resolve J_scanner_next : jj.

Lemma J_peek  : keepS peek. Proof. unfold peek. jj. Qed.
Hint Resolve J_peek : jj.

Lemma J_set_front (d : token_data) : keepS (set_front d). Proof. unfold set_front. jj. Qed.
Hint Resolve J_set_front : jj.

Lemma J_skip_token  : keepS skip_token. Proof. unfold skip_token. jj. Qed.
Hint Resolve J_skip_token : jj.


Definition JP (p : pst) : Prop := JS (sc p).
Definition EP (e : error) (p : pst) : Prop := ES e (sc p).
Notation keepP := (keep JP EP).
Lemma J_on_sc {A} (m : M sst A) : keepS m -> keepP (on_sc m).
Proof. intros X p H. specialize (X (sc p) H). unfold kp, on_sc in *. destruct (m (sc p)) as [[a|e|q|] s1]; exact X. Qed.
Hint Extern 2 (keepP (on_sc _)) => (apply J_on_sc; solve [jj]) : jj.


(** ** The parser *)

Lemma J_ppeek  : keepP ppeek. Proof. unfold ppeek. jj. Qed.
Hint Resolve J_ppeek : jj.

Lemma J_pskip  : keepP pskip. Proof. unfold pskip. jj. Qed.
Hint Resolve J_pskip : jj.

Lemma J_push_state (x : pstate) : keepP (push_state x). Proof. unfold push_state. jj. Qed.
Hint Resolve J_push_state : jj.

Lemma J_goto (x : pstate) : keepP (goto x). Proof. unfold goto. jj. Qed.
Hint Resolve J_goto : jj.

Lemma J_pop_state  : keepP pop_state. Proof. unfold pop_state. jj. Qed.
Hint Resolve J_pop_state : jj.

Lemma J_push_mark (m : mark) : keepP (push_mark m). Proof. unfold push_mark. jj. Qed.
Hint Resolve J_push_mark : jj.

Lemma J_pop_mark  : keepP pop_mark. Proof. unfold pop_mark. jj. Qed.
Hint Resolve J_pop_mark : jj.

Lemma J_drop_mark  : keepP drop_mark. Proof. unfold drop_mark. jj. Qed.
Hint Resolve J_drop_mark : jj.

Lemma J_append_tag_directive (value : tag_directive) (allow_duplicates : bool) (m : mark) : keepP (append_tag_directive value allow_duplicates m). Proof. unfold append_tag_directive. jj. Qed.
Hint Resolve J_append_tag_directive : jj.

Lemma J_directives_loop  : keepP directives_loop. Proof. unfold directives_loop. jj. Qed.
Hint Resolve J_directives_loop : jj.

Lemma J_process_directives  : keepP process_directives. Proof. unfold process_directives. jj. Qed.
Hint Resolve J_process_directives : jj.

Lemma J_parse_stream_start  : keepP parse_stream_start. Proof. unfold parse_stream_start. jj. Qed.
Hint Resolve J_parse_stream_start : jj.

Lemma J_skip_document_ends  : keepP skip_document_ends. Proof. unfold skip_document_ends. jj. Qed.
Hint Resolve J_skip_document_ends : jj.

Lemma J_parse_document_start (implicit : bool) : keepP (parse_document_start implicit). Proof. unfold parse_document_start. jj. Qed.
Hint Resolve J_parse_document_start : jj.

Lemma J_parse_properties (t : token) : keepP (parse_properties t). Proof. unfold parse_properties. jj. Qed.
Hint Resolve J_parse_properties : jj.

Lemma J_resolve_tag h a b : keepP (resolve_tag h a b). Proof. unfold resolve_tag. jj. Qed.
Hint Resolve J_resolve_tag : jj.
Lemma J_parse_node_content (block indentless_sequence : bool) (t : token) : keepP (parse_node_content block indentless_sequence t). Proof. unfold parse_node_content. jj. Qed.
Hint Resolve J_parse_node_content : jj.

Lemma J_parse_node (block : bool) (indentless_sequence : bool) : keepP (parse_node block indentless_sequence). Proof. unfold parse_node. jj. Qed.
Hint Resolve J_parse_node : jj.

Lemma J_parse_document_content  : keepP parse_document_content. Proof. unfold parse_document_content. jj. Qed.
Hint Resolve J_parse_document_content : jj.

Lemma J_parse_document_end  : keepP parse_document_end. Proof. unfold parse_document_end. jj. Qed.
Hint Resolve J_parse_document_end : jj.

Lemma J_enter_collection (first : bool) : keepP (enter_collection first). Proof. unfold enter_collection. jj. Qed.
Hint Resolve J_enter_collection : jj.

Lemma J_leave_collection (d : event_data) (t : token) : keepP (leave_collection d t). Proof. unfold leave_collection. jj. Qed.
Hint Resolve J_leave_collection : jj.

Lemma J_collection_error a b t : keepP (collection_error a b t). Proof. unfold collection_error. jj. Qed.
Hint Resolve J_collection_error : jj.

Lemma J_parse_block_sequence_entry (first : bool) : keepP (parse_block_sequence_entry first). Proof. unfold parse_block_sequence_entry. jj. Qed.
Hint Resolve J_parse_block_sequence_entry : jj.

Lemma J_parse_indentless_sequence_entry  : keepP parse_indentless_sequence_entry. Proof. unfold parse_indentless_sequence_entry. jj. Qed.
Hint Resolve J_parse_indentless_sequence_entry : jj.

Lemma J_parse_block_mapping_key (first : bool) : keepP (parse_block_mapping_key first). Proof. unfold parse_block_mapping_key. jj. Qed.
Hint Resolve J_parse_block_mapping_key : jj.

Lemma J_parse_block_mapping_value  : keepP parse_block_mapping_value. Proof. unfold parse_block_mapping_value. jj. Qed.
Hint Resolve J_parse_block_mapping_value : jj.

Lemma J_flow_separator (first : bool) (context : string) (problem : string) (t : token) : keepP (flow_separator first context problem t). Proof. unfold flow_separator. jj. Qed.
Hint Resolve J_flow_separator : jj.

Lemma J_parse_flow_sequence_entry (first : bool) : keepP (parse_flow_sequence_entry first). Proof. unfold parse_flow_sequence_entry. jj. Qed.
Hint Resolve J_parse_flow_sequence_entry : jj.

Lemma J_parse_flow_sequence_entry_mapping_key  : keepP parse_flow_sequence_entry_mapping_key. Proof. unfold parse_flow_sequence_entry_mapping_key. jj. Qed.
Hint Resolve J_parse_flow_sequence_entry_mapping_key : jj.

Lemma J_parse_flow_sequence_entry_mapping_value  : keepP parse_flow_sequence_entry_mapping_value. Proof. unfold parse_flow_sequence_entry_mapping_value. jj. Qed.
Hint Resolve J_parse_flow_sequence_entry_mapping_value : jj.

Lemma J_parse_flow_sequence_entry_mapping_end  : keepP parse_flow_sequence_entry_mapping_end. Proof. unfold parse_flow_sequence_entry_mapping_end. jj. Qed.
Hint Resolve J_parse_flow_sequence_entry_mapping_end : jj.

Lemma J_parse_flow_mapping_key (first : bool) : keepP (parse_flow_mapping_key first). Proof. unfold parse_flow_mapping_key. jj. Qed.
Hint Resolve J_parse_flow_mapping_key : jj.

Lemma J_parse_flow_mapping_value (empty : bool) : keepP (parse_flow_mapping_value empty). Proof. unfold parse_flow_mapping_value. jj. Qed.
Hint Resolve J_parse_flow_mapping_value : jj.

Lemma J_state_machine  : keepP state_machine. Proof. unfold state_machine. jj. Qed.
Hint Resolve J_state_machine : jj.

Lemma J_parse  : keepP parse. Proof. unfold parse. jj. Qed.
Hint Resolve J_parse : jj.

Lemma J_parser_next  : keepP parser_next. Proof. unfold parser_next. jj. Qed.
Hint Resolve J_parser_next : jj.


Definition JL (l : lst) : Prop := JP (l_parser l).
Definition EL (e : error) (l : lst) : Prop := EP e (l_parser l).
Notation keepL := (keep JL EL).
Lemma J_on_parser {A} (m : M pst A) : keepP m -> keepL (on_parser m).
Proof. intros X p H. specialize (X (l_parser p) H). unfold kp, on_parser in *. destruct (m (l_parser p)) as [[a|e|q|] s1]; exact X. Qed.
Hint Extern 2 (keepL (on_parser _)) => (apply J_on_parser; solve [jj]) : jj.


(** ** The loader *)

Lemma J_register_anchor (index : Z) (anchor : option str) : keepL (register_anchor index anchor). Proof. unfold register_anchor. jj. Qed.
Hint Resolve J_register_anchor : jj.

Lemma J_load_node_add (index : Z) : keepL (load_node_add index). Proof. unfold load_node_add. jj. Qed.
Hint Resolve J_load_node_add : jj.

Lemma J_load_alias (anchor : str) (m : mark) : keepL (load_alias anchor m). Proof. unfold load_alias. jj. Qed.
Hint Resolve J_load_alias : jj.

Lemma J_load_push (n : node) (anchor : option str) : keepL (load_push n anchor). Proof. unfold load_push. jj. Qed.
Hint Resolve J_load_push : jj.

Lemma J_push_ctx (i : Z) : keepL (push_ctx i). Proof. unfold push_ctx. jj. Qed.
Hint Resolve J_push_ctx : jj.

Lemma J_load_end (seq : bool) (m : mark) : keepL (load_end seq m). Proof. unfold load_end. jj. Qed.
Hint Resolve J_load_end : jj.

Lemma J_load_event (e : event) : keepL (load_event e). Proof. unfold load_event. jj. Qed.
Hint Resolve J_load_event : jj.

Lemma J_load_nodes  : keepL load_nodes. Proof. unfold load_nodes. jj. Qed.
Hint Resolve J_load_nodes : jj.

Lemma J_load_document (e : event) : keepL (load_document e). Proof. unfold load_document. jj. Qed.
Hint Resolve J_load_document : jj.


Lemma J_load_rest : keepP load_rest.
Proof.
  intros p H. unfold kp, load_rest. destruct (stream_end_produced (sc p)); [exact H|]. pose proof (J_parse p H) as X. unfold kp in X.
  destruct (parse p) as [[v|x|q|] p1]; try exact Logic.I; [|exact X].
  pose proof (J_load_document v (Mk_lst p1 (document_new None [] false false) []) X) as Y. unfold kp in Y.
  destruct (load_document v (Mk_lst p1 (document_new None [] false false) [])) as [[u|x|q|] l]; destruct (e_data v); try exact Logic.I; try exact X; exact Y.
Qed.
Lemma J_load : keepP load.
Proof.
  intros p H. unfold kp, load. destruct (stream_start_produced (sc p)); [exact (J_load_rest p H)|]. pose proof (J_parse p H) as X. unfold kp in X.
  destruct (parse p) as [[v|x|q|] p1]; try exact Logic.I; [|exact X]. destruct (e_data v); try exact Logic.I. exact (J_load_rest p1 X).
Qed.
End Input.
