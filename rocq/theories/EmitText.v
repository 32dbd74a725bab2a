(** EmitText.v -- what the emitter writes, independently of the output buffer, of the output
    encoding and of write failures: every operation appends a text to the output, and this text
    depends neither on how full the buffer is nor on the encoding. *)
From Verif Require Import Base Utf Chars EState Emitter Document Api.

(** A byte order mark is written for UTF-16 output only. *)
Definition bom_of (e : encoding) : list char := match e with Utf16Le | Utf16Be => [cBOM] | _ => [] end.

(** The emitter without its output side. *)
Definition core (s : est) : est := set_em_writer None (set_em_buffer [] (set_em_raw [] (set_em_encoding EncAny s))).
Definition plan (s : est) : list write_ev := match em_writer s with Some w => w_plan w | None => [] end.
(** [holds e t s]: the output encoding is [e]; the handler has received, or will receive when the
    buffer is flushed, exactly the encoding of the text [t]. *)
Definition holds (e : encoding) (t : list char) (s : est) : Prop :=
  em_encoding s = e /\ e <> EncAny /\ em_raw s = [] /\
  exists w, em_writer s = Some w /\ w_out w ++ encode_out e (em_buffer s) = encode_out e (bom_of e ++ t).
Definition oks (l : list write_ev) : Prop := Forall (fun e => e = WOk) l.
Definition used_by (s : est) (l : list write_ev) (s' : est) : Prop :=
  plan s = l ++ plan s'.

(** [runs m c d r c']: from any state with core [c], [m] appends the text [d], returns [r] and
    leaves the core [c'] -- or a write fails, and [m] returns that failure, having written a prefix
    of the text. *)
Definition outcome {A} (m : M est A) (s : est) (e : encoding) (t d : list char) (r : res A) (c' : est) : Prop :=
  (exists s' used, m s = (r, s') /\ core s' = c' /\ holds e (t ++ d) s' /\ oks used /\ used_by s used s') \/
  (exists s' used k x, m s = (Err (EIo (OtherIo x)), s') /\ oks used /\ used_by s (used ++ [WFail k x]) s' /\
     exists rest, encode_out e (bom_of e ++ t ++ d) = output s' ++ rest).
Definition runs {A} (m : M est A) (c : est) (d : list char) (r : res A) (c' : est) : Prop :=
  forall s e t, core s = c -> holds e t s -> outcome m s e t d r c'.

Lemma encode_out_app e a b : encode_out e (a ++ b) = encode_out e a ++ encode_out e b.
Proof. destruct e; cbn; unfold encode_utf8, encode_utf16; rewrite ?flat_map_app; reflexivity. Qed.

Lemma runs_ret {A} (a : A) c : runs (ret a) c [] (Ok a) c.
Proof. intros s e t Hc H. left. exists s, []. rewrite app_nil_r. repeat split; auto; try apply H. constructor. Qed.
Lemma runs_fail {A} x c : runs (@fail est A x) c [] (Err x) c.
Proof. intros s e t Hc H. left. exists s, []. rewrite app_nil_r. repeat split; auto; try apply H. constructor. Qed.
Lemma runs_panics {A} x c : runs (@panics est A x) c [] (Panic x) c.
Proof. intros s e t Hc H. left. exists s, []. rewrite app_nil_r. repeat split; auto; try apply H. constructor. Qed.
Lemma runs_fuel {A} c : runs (fun s => (@Fuel A, s)) c [] Fuel c.
Proof. intros s e t Hc H. left. exists s, []. rewrite app_nil_r. repeat split; auto; try apply H. constructor. Qed.

Lemma runs_bind {A B} (m : M est A) (k : A -> M est B) c d1 a c1 d2 r c2 :
  runs m c d1 (Ok a) c1 -> runs (k a) c1 d2 r c2 -> runs (bind m k) c (d1 ++ d2) r c2.
Proof.
  intros H1 H2 s e t Hc H. destruct (H1 s e t Hc H) as [(s1 & u1 & E1 & C1 & D1 & O1 & P1)|(s1 & u1 & k1 & x & E1 & O1 & P1 & rest & Q1)].
  - destruct (H2 s1 e (t ++ d1) C1 D1) as [(s2 & u2 & E2 & C2 & D2 & O2 & P2)|(s2 & u2 & k2 & x & E2 & O2 & P2 & rest & Q2)].
    + left. exists s2, (u1 ++ u2). unfold bind. rewrite E1. rewrite app_assoc. repeat split; auto; try apply D2.
      * apply Forall_app; auto.
      * unfold used_by in *. rewrite P1, P2, app_assoc. reflexivity.
    + right. exists s2, (u1 ++ u2), k2, x. unfold bind. rewrite E1. split; [exact E2|]. split; [apply Forall_app; auto|]. split.
      * unfold used_by in *. rewrite P1, P2, <- !app_assoc. reflexivity.
      * exists rest. rewrite (app_assoc t). exact Q2.
  - right. exists s1, u1, k1, x. unfold bind. rewrite E1. repeat split; auto.
    exists (rest ++ encode_out e d2). rewrite (app_assoc (output s1)), <- Q1, <- encode_out_app, <- !app_assoc. reflexivity.
Qed.
Definition is_ok {A} (r : res A) : bool := match r with Ok _ => true | _ => false end.
Definition recast {A B} (r : res A) : res B := match r with Ok _ => Fuel | Err x => Err x | Panic p => Panic p | Fuel => Fuel end.
Lemma runs_bind_stop {A B} (m : M est A) (k : A -> M est B) c d r c1 :
  is_ok r = false -> runs m c d r c1 -> runs (bind m k) c d (recast r) c1.
Proof.
  intros Hr H1 s e t Hc H. destruct (H1 s e t Hc H) as [(s1 & u1 & E1 & C1)|(s1 & u1 & k1 & x & E1 & O1)].
  - left. exists s1, u1. split; [|exact C1]. unfold bind. rewrite E1. destruct r; try discriminate Hr; reflexivity.
  - right. exists s1, u1, k1, x. split; [|exact O1]. unfold bind. rewrite E1. reflexivity.
Qed.
Lemma runs_get {A} (k : est -> M est A) c d r c' :
  (forall s, k s = k (core s)) -> runs (k c) c d r c' -> runs (bind get k) c d r c'.
Proof.
  intros Hk H s e t Hc Hh. specialize (H s e t Hc Hh). unfold outcome in *.
  change (bind get k s) with (k s s). rewrite (Hk s), Hc. exact H.
Qed.
(** A state change that concerns the core only. *)
Definition inner (f : est -> est) : Prop := forall s,
  core (f s) = core (f (core s)) /\ em_writer (f s) = em_writer s /\ em_buffer (f s) = em_buffer s /\
  em_raw (f s) = em_raw s /\ em_encoding (f s) = em_encoding s.
Lemma holds_ext e t s s' : em_writer s' = em_writer s -> em_buffer s' = em_buffer s -> em_raw s' = em_raw s ->
  em_encoding s' = em_encoding s -> holds e t s -> holds e t s'.
Proof. unfold holds. intros -> -> -> ->. auto. Qed.
Lemma runs_modify f c : inner f -> runs (modify f) c [] (Ok tt) (core (f c)).
Proof.
  intros Hf s e t Hc H. destruct (Hf s) as (F1 & F2 & F3 & F4 & F5). left. exists (f s), []. rewrite app_nil_r.
  split; [reflexivity|]. split; [rewrite F1, Hc; reflexivity|]. split; [exact (holds_ext _ _ _ _ F2 F3 F4 F5 H)|].
  split; [constructor|]. unfold used_by, plan. rewrite F2. reflexivity.
Qed.
Lemma runs_conseq {A} (m : M est A) c d r c' d0 r0 c0 : runs m c d r c' -> d = d0 -> r = r0 -> c' = c0 -> runs m c d0 r0 c0.
Proof. intros H <- <- <-. exact H. Qed.
Lemma runs_ext {A} (m m' : M est A) c d r c' : (forall s, m s = m' s) -> runs m c d r c' -> runs m' c d r c'.
Proof. intros E H s e t Hc Hh. specialize (H s e t Hc Hh). unfold outcome in *. rewrite <- E. exact H. Qed.
(** A step that reads and changes the core only. *)
Lemma runs_raw {A} (m : M est A) c :
  (forall s, fst (m s) = fst (m (core s)) /\ core (snd (m s)) = core (snd (m (core s))) /\
     em_writer (snd (m s)) = em_writer s /\ em_buffer (snd (m s)) = em_buffer s /\
     em_raw (snd (m s)) = em_raw s /\ em_encoding (snd (m s)) = em_encoding s) ->
  runs m c [] (fst (m c)) (core (snd (m c))).
Proof.
  intros Hf s e t Hc H. destruct (Hf s) as (F0 & F1 & F2 & F3 & F4 & F5). left. exists (snd (m s)), []. rewrite app_nil_r.
  split; [rewrite <- Hc, <- F0; destruct (m s); reflexivity|]. split; [rewrite F1, Hc; reflexivity|]. split; [exact (holds_ext _ _ _ _ F2 F3 F4 F5 H)|].
  split; [constructor|]. unfold used_by, plan. rewrite F2. reflexivity.
Qed.
Lemma core_core s : core (core s) = core s. Proof. reflexivity. Qed.
Definition is_core (c : est) : Prop := core c = c.

(** ** Output *)
Lemma core_flushed s w : core (set_em_buffer [] (set_em_writer w s)) = core s. Proof. reflexivity. Qed.
Lemma write_all_cases l w : exists w', 
  (write_all l w = (None, w') /\ w_out w' = w_out w ++ l /\ (exists u, oks u /\ w_plan w = u ++ w_plan w')) \/
  (exists k x, write_all l w = (Some (OtherIo x), w') /\ w_out w' = w_out w ++ firstn k l /\ w_plan w = WFail k x :: w_plan w').
Proof.
  destruct w as [o [|[|k x] p]]; unfold write_all; cbn [w_plan w_out]; eexists.
  - left. split; [reflexivity|]. split; [reflexivity|]. exists []. split; [constructor|reflexivity].
  - left. split; [reflexivity|]. split; [reflexivity|]. exists [WOk]. split; [repeat constructor|reflexivity].
  - right. exists k, x. split; [reflexivity|]. split; reflexivity.
Qed.
Lemma flush_eq s e t : holds e t s -> is_empty (em_buffer s) = false ->
  exists w, em_writer s = Some w /\
  flush s = match write_all (encode_out e (em_buffer s)) w with
            | (None, w') => (Ok tt, set_em_raw [] (set_em_buffer [] (set_em_writer (Some w') s)))
            | (Some x, w') => (Err (EIo x), set_em_writer (Some w') (if encoding_eqb e Utf8 then s else set_em_raw (encode_out e (em_buffer s)) s))
            end.
Proof.
  intros (He & Hn & Hr & w & Hw & Ho) Hb. exists w. split; [exact Hw|].
  unfold flush, bind, get. rewrite Hw, Hb.
  destruct s as [wr bf rw en ca bi bw un lb sts st evs inds tds ind fl rc sc mc sk li co ws io oe op cl ans lid].
  cbn in He, Hr, Hw, Hb |- *. subst wr rw en.
  destruct e; [destruct (Hn eq_refl)|..]; cbn [encoding_eqb]; unfold write_all_m, modify; cbn [em_writer set_em_raw em_raw em_buffer em_encoding app];
  destruct (write_all _ w) as [[x|] w']; reflexivity.
Qed.
Lemma runs_flush c : runs flush c [] (Ok tt) c.
Proof.
  intros s e t Hc H. destruct (is_empty (em_buffer s)) eqn:Eb.
  - left. exists s, []. rewrite app_nil_r. destruct H as (He & Hn & Hr & w & Hw & Ho).
    split. { unfold flush, bind, get. rewrite Hw, He, Eb. destruct e; [destruct (Hn eq_refl)|..]; reflexivity. }
    repeat split; auto; [|constructor]. exists w. auto.
  - destruct (flush_eq s e t H Eb) as (w & Ew & Ef). destruct H as (He & Hn & Hr & w0 & Hw & Ho).
    assert (w0 = w) as -> by congruence. unfold outcome. rewrite Ef.
    destruct (write_all_cases (encode_out e (em_buffer s)) w) as (w' & [(E & Eo & u & O & P)|(k & x & E & Eo & P)]); rewrite E.
    + left. eexists _, u. split; [reflexivity|]. rewrite app_nil_r. split; [exact Hc|]. split.
      { split; [exact He|]. split; [exact Hn|]. split; [reflexivity|]. exists w'. split; [reflexivity|]. cbn [em_buffer set_em_raw set_em_buffer].
        rewrite Eo, Ho. replace (encode_out e []) with (@nil byte) by (destruct e; reflexivity). apply app_nil_r. }
      split; [exact O|]. unfold used_by, plan. cbn [em_writer set_em_raw set_em_buffer set_em_writer]. rewrite Ew. exact P.
    + right. eexists _, [], k, x. split; [reflexivity|]. split; [constructor|]. split.
      { unfold used_by, plan. cbn [em_writer set_em_writer]. rewrite Ew. exact P. }
      exists (skipn k (encode_out e (em_buffer s))). rewrite app_nil_r, <- Ho. unfold output. cbn [em_writer set_em_writer].
      rewrite Eo, <- app_assoc, firstn_skipn. reflexivity.
Qed.
Lemma runs_out l c : runs (out l) c l (Ok tt) c.
Proof.
  intros s e t Hc (He & Hn & Hr & w & Hw & Ho). left. exists (set_em_buffer (em_buffer s ++ l) s), []. split; [reflexivity|].
  split; [exact Hc|]. split.
  { repeat split; auto. exists w. split; [exact Hw|]. cbn [em_buffer set_em_buffer].
    rewrite encode_out_app, app_assoc, Ho, <- encode_out_app, <- app_assoc. reflexivity. }
  split; [constructor|reflexivity].
Qed.
(** Reading the fill level of the buffer to decide whether to flush. *)
Lemma outcome_eq {A} (m m' : M est A) s e t d r c' : m' s = m s -> outcome m s e t d r c' -> outcome m' s e t d r c'.
Proof. intros E H. unfold outcome in *. rewrite E. exact H. Qed.
Lemma runs_maybe_flush (b : est -> bool) c : runs (s <- get ;; if b s then flush else ret tt) c [] (Ok tt) c.
Proof.
  intros s e t Hc H. apply (outcome_eq (if b s then flush else ret tt)); [reflexivity|].
  destruct (b s); [exact (runs_flush c s e t Hc H)|exact (runs_ret tt c s e t Hc H)].
Qed.
Lemma runs_maybe_not_flush (b : est -> bool) c : runs (s <- get ;; if b s then ret tt else flush) c [] (Ok tt) c.
Proof.
  intros s e t Hc H. apply (outcome_eq (if b s then ret tt else flush)); [reflexivity|].
  destruct (b s); [exact (runs_ret tt c s e t Hc H)|exact (runs_flush c s e t Hc H)].
Qed.
Lemma runs_flush_if_needed c : runs flush_if_needed c [] (Ok tt) c.
Proof. exact (runs_maybe_not_flush (fun s => str_len (em_buffer s) <? OUTPUT_BUFFER_SIZE - 5) c). Qed.

Lemma runs_seq {A} (m : M est unit) (k : M est A) c d1 c1 d2 r c2 :
  runs m c d1 (Ok tt) c1 -> runs k c1 d2 r c2 -> runs (m ;; k) c (d1 ++ d2) r c2.
Proof. intros H1 H2. exact (runs_bind m (fun _ => k) c d1 tt c1 d2 r c2 H1 H2). Qed.

Definition after_chars (n : Z) (c : est) : est := set_em_column (em_column c + n)%Z c.
Definition after_line (c : est) : est := set_em_column 0%Z (set_em_line (em_line c + 1)%Z c).
Ltac inner := let s := fresh "s" in intros s; repeat split.
Lemma runs_modify' f c : inner f -> core (f c) = f c -> runs (modify f) c [] (Ok tt) (f c).
Proof. intros H E. rewrite <- E. apply runs_modify, H. Qed.

Lemma runs_core {A} (m : M est A) c d r c' : (is_core c -> runs m c d r c') -> runs m c d r c'.
Proof. intros H s e t Hc. apply H; [|exact Hc]. unfold is_core. rewrite <- Hc. reflexivity. Qed.
Lemma runs_put x c : runs (put x) c [x] (Ok tt) (after_chars 1 c).
Proof.
  apply runs_core. intros H. unfold put. refine (runs_seq _ _ _ [] c [x] _ _ (runs_flush_if_needed c) _).
  refine (runs_seq _ _ _ [x] c [] _ _ (runs_out [x] c) _).
  unfold add_column. apply runs_modify'; [inner|]. unfold is_core in H. rewrite <- H. reflexivity.
Qed.
Lemma runs_write_char x c : runs (write_char x) c [x] (Ok tt) (after_chars 1 c).
Proof. exact (runs_put x c). Qed.
Lemma runs_put_break c : runs put_break c (break_chars (em_line_break c)) (Ok tt) (after_line c).
Proof.
  apply runs_core. intros H. unfold put_break. refine (runs_seq _ _ _ [] c _ _ _ (runs_flush_if_needed c) _).
  apply runs_get; [reflexivity|]. refine (runs_conseq _ _ _ _ _ _ _ _ (runs_seq _ _ _ _ c [] _ (after_line c) (runs_out _ c) _) (app_nil_r _) eq_refl eq_refl).
  unfold new_line. apply runs_modify'; [inner|]. unfold is_core in H. rewrite <- H. reflexivity.
Qed.
Lemma runs_write_str l c : runs (write_str l) c l (Ok tt) (after_chars (Z.of_nat (length l)) c).
Proof.
  apply runs_core. intros H. unfold write_str.
  assert (F : runs (s <- get ;; when (OUTPUT_BUFFER_SIZE <? str_len (em_buffer s) + str_len l) flush) c [] (Ok tt) c)
    by exact (runs_maybe_flush (fun s => OUTPUT_BUFFER_SIZE <? str_len (em_buffer s) + str_len l) c).
  refine (runs_ext ((s <- get ;; when (OUTPUT_BUFFER_SIZE <? str_len (em_buffer s) + str_len l) flush) ;; (add_column (Z.of_nat (length l)) ;; out l)) _ _ _ _ _ _ _).
  { intros s. unfold bind, get. reflexivity. }
  refine (runs_seq _ _ _ [] c l _ _ F _). refine (runs_seq _ _ _ [] _ l _ _ _ (runs_out l _)).
  unfold add_column. apply runs_modify'; [inner|]. unfold is_core in H. rewrite <- H. reflexivity.
Qed.
