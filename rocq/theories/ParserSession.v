(** ParserSession.v -- sessions of the parser up to the first error. *)
From Coq Require Import ZifyBool ZifyNat ZifyN.
From Verif Require Import Base Utf Chars State Reader Scanner Parser EState Emitter Document Api Wp ReaderFacts Spec_Tokens ScanFacts TokFacts FetchFacts FetchWp FetchLoop FlowFacts Spec_Scanner SessionFacts Spec_Parser Spec_Events EventFacts ParserFacts ParserWalk ParserWalk2 ParserWalk3 ParserWalk4.

Lemma PI_start dbg e i : PI (scanner_start dbg e i) [] mark0 GStart (parser_start dbg e i).
Proof.
  unfold parser_start. constructor; cbn [sc state states marks tag_directives set_sc parser_new is_end]; auto.
  - apply SInv_start.
  - exists (scanner_start dbg e i). split; [reflexivity|]. split; [reflexivity|left; reflexivity].
  - left. reflexivity.
  - exact I.
  - reflexivity.
Qed.
Lemma at_end_is_end st del lo g p : PI st del lo g p -> at_end p = is_end (state p).
Proof. intros H. unfold at_end. rewrite (pi_sep _ _ _ _ _ H). destruct (state p); reflexivity. Qed.
Lemma is_end_g st del lo g p : PI st del lo g p -> is_end (state p) = true -> g = GEnd.
Proof.
  intros H He. pose proof (pi_g _ _ _ _ _ H) as Hg. destruct (state p); try discriminate. cbn [gof] in Hg. destruct (states p); congruence.
Qed.
Lemma g_end_is st del lo p : PI st del lo GEnd p -> is_end (state p) = true.
Proof.
  intros H. pose proof (pi_g _ _ _ _ _ H) as Hg. destruct (state p); try reflexivity; exfalso; cbn [gof] in Hg;
    repeat match type of Hg with context [match ?x with _ => _ end] => destruct x end; try discriminate;
    destruct (stack _); discriminate.
Qed.

Definition next_spec st del lo g p (r : res (option event)) (p' : pst) : Prop :=
  match r with
  | Ok (Some e) => is_end (state p) = false /\ PQ st (sc p) del lo g (rank (state p :: states p)) e p'
  | Ok None => is_end (state p) = true /\ p' = p
  | Err e => is_end (state p) = false /\ perr (sc p) e p'
  | Panic q => fpanic (sc p) q
  | Fuel => False
  end.
Lemma next_ok st del lo g p : PI st del lo g p -> next_spec st del lo g p (fst (parser_next p)) (snd (parser_next p)).
Proof.
  intros H. pose proof (at_end_is_end _ _ _ _ _ H) as Ha. unfold parser_next, bind, get. destruct (at_end p) eqn:E.
  - cbn. auto.
  - unfold parse, bind, get. rewrite E. pose proof (state_machine_ok _ _ _ _ _ H (eq_sym Ha)) as W. unfold PW, wp in W.
    destruct (state_machine p) as [[e|e|q|] p']; cbn; auto.
Qed.

Record PSess (st : sst) (p0 : pst) (del : list token) (lo : mark) (g : gstate) (es : list event) (none : bool) (p : pst)
  (tss : list (list token)) (g' : gstate) (lo' : mark) : Prop := {
  ps_pi : PI st (del ++ concat tss) lo' g' p;
  ps_ex : explained (ds_of g) tss (map e_data es);
  ps_g : grun g (map e_data es) = Some g';
  ps_dirs : Forall (fun e => dirs_ok (e_data e)) es;
  ps_prog : prog (- Z.of_nat (length (concat tss))) (sc p0) (sc p);
  ps_rank : (rank (state p :: states p) + length es <= rank (state p0 :: states p0) + 4 * length (concat tss))%nat;
  ps_marks : marks_follow lo es;
  ps_ends : Forall (fun e => mark_le (e_end e) (pos (sc p))) es;
  ps_none : none = true -> is_end (state p) = true }.

Lemma gstep_ds g d g' : gstep g d = Some g' -> ds_of g' = directives_after (ds_of g) d.
Proof.
  unfold gstep. intros H. destruct g as [| |ds fs|].
  - destruct d; try discriminate; injection H as <-; reflexivity.
  - destruct d; try discriminate; injection H as <-; reflexivity.
  - destruct d, fs as [|[] [|]]; cbn in H; try discriminate; injection H as <-; reflexivity.
  - destruct d; discriminate.
Qed.
Lemma is_end_calls n : forall p, at_end p = true -> calls parser_next n p = (repeat (Ok None) n, p).
Proof.
  induction n as [|n IH]; intros p H; [reflexivity|]. cbn [calls repeat]. unfold parser_next at 1, bind, get. rewrite H. unfold ret.
  rewrite (IH p H). reflexivity.
Qed.

Lemma calls_length {S A} (m : M S A) n : forall s, length (fst (calls m n s)) = n.
Proof.
  induction n as [|n IH]; intros s; [reflexivity|]. cbn [calls]. destruct (m s) as [r s1]. specialize (IH s1). destruct (calls m n s1). cbn in *. lia.
Qed.
Lemma session_parser n : forall st del lo g p os p', PI st del lo g p -> calls parser_next n p = (os, p') -> Forall succeeded os ->
  exists tss g' lo', PSess st p del lo g (events_of os) (Nat.ltb (length (events_of os)) n) p' tss g' lo'.
Proof.
  induction n as [|n IH]; intros st del lo g p os p' H; cbn [calls].
  - intros [= <- <-] _. exists [], g, lo. constructor; cbn; rewrite ?app_nil_r; auto; try discriminate; try lia. apply prog_refl.
  - pose proof (next_ok _ _ _ _ _ H) as N. destruct (parser_next p) as [r p1] eqn:E1. cbn [fst snd] in N.
    destruct (calls parser_next n p1) as [l p2] eqn:E2. intros [= <- <-] HF. apply Forall_cons_iff in HF. destruct HF as [HF1 HF2].
    destruct r as [[e|]|e|q|]; try contradiction.
    + destruct N as (He & ts & g1 & [X1 X2 X3 X4 X5 X6 X7 X8 X9]). destruct (IH _ _ _ _ _ _ _ X4 E2 HF2) as (tss & g' & lo' & [Y1 Y2 Y3 Y4 Y5 Y6 Y7 Y8 Y9]).
      exists (ts :: tss), g', lo'. cbn [events_of flat_map event_of app map concat length] in *. fold (events_of l) in *. constructor.
      * cbn [concat]. rewrite app_assoc. exact Y1.
      * cbn [map explained]. split; [exact X1|]. rewrite <- (gstep_ds _ _ _ X3). exact Y2.
      * cbn [map grun]. rewrite X3. exact Y3.
      * constructor; assumption.
      * eapply prog_weaken; [eapply prog_trans; [exact X5|exact Y5]|]. cbn [concat]. rewrite app_length. lia.
      * cbn [concat length]. rewrite app_length. lia.
      * cbn [marks_follow]. auto.
      * constructor; [|exact Y8]. eapply mark_le_trans; [exact X9|apply Y5].
      * intros Hn. apply Y9. cbn [length] in Hn. apply Nat.ltb_lt. apply Nat.ltb_lt in Hn. lia.
    + destruct N as (He & ->). pose proof (at_end_is_end _ _ _ _ _ H) as Ha. rewrite He in Ha.
      rewrite (is_end_calls n p Ha) in E2. injection E2 as <- <-.
      assert (Hev : events_of (repeat (Ok None) n) = []) by (clear; induction n; auto).
      exists [], g, lo. cbn [events_of flat_map event_of app]. fold (events_of (repeat (Ok None) n)). rewrite Hev.
      constructor; cbn; rewrite ?app_nil_r; auto; try lia. apply prog_refl.
Qed.
