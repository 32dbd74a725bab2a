(** LayScan.v -- the tokens that the scanner finds in a text made of items. *)
From Coq Require Import Lia ZifyBool ZifyNat ZifyN Bool.
From Verif Require Import Base Utf Chars State Reader Scanner Wp ReaderFacts ReadFacts ScanFacts RoundScan RoundPlain EState Emitter EmitScalar EmitQuoted EmitGrammar Spec_EmitNames CanonLex CanonBody LayItems LayLex.
From Verif Require Spec_Lexical Spec_Styles LexBase LexScan LexNames LexQuoted LexPlain LexBlock LexNext CanonItems Prop_RoundTrip Spec_RoundTrip EmitPlain RoundLiteral.
Import Spec_Lexical (position, step_mark, breaks_line).
Open Scope N_scope.

Section items.
Variable lf : str.
Hypothesis Hlf : lf_ok lf.
Notation itext := (itext lf).
Notation lstep := (lstep lf).
Definition item_ok (i : item) : Prop :=
  match i with
  | IName _ a => a <> [] /\ forallb is_alpha_c a = true
  | ITag f => form_ok f
  | IQuoted single ats => Forall (awf single lf) ats /\ (forall x, cols 1 (x + 1) ats) /\ (single = true -> Forall (fun ch => allowed_char ch = true) (den g0 ats))
  | IPlain flow k ats => exists u v, Spec_Styles.plain_text u flow v /\ v <> [] /\ pw flow false lf ats /\ hd_word ats /\ den g0 ats = v /\ cols k k (tl ats) /\ 1 <= k /\
      (is_blankz (hd_error (tl v)) = false -> hd_word (tl ats))
  | ILit li n d v => v <> [] /\ Forall RoundLiteral.lchar v /\ 1 <= d <= 9 /\ 1 <= n /\ Forall (fun ch => allowed_char ch = true) v
  | IVersion d => d < 10
  | ITagDir h x => valid_handle h /\ x <> [] /\ ascii x
  | _ => True
  end.
Definition texts (l : list item) : str := flat_map itext l.
Fixpoint lrun (s : lstate) (l : list item) : option (lstate * list token_data) :=
  match l with [] => Some (s, []) | i :: r => do (s1, t1) <- lstep s i; do (s2, t2) <- lrun s1 r; Some (s2, t1 ++ t2) end.
Lemma texts_app a b : texts (a ++ b) = texts a ++ texts b. Proof. apply flat_map_app. Qed.
Lemma texts_cons i l : texts (i :: l) = itext i ++ texts l. Proof. reflexivity. Qed.
Lemma lrun_cons s i r s' t : lrun s (i :: r) = Some (s', t) -> exists s1 t1 t2, lstep s i = Some (s1, t1) /\ lrun s1 r = Some (s', t2) /\ t = t1 ++ t2.
Proof.
  cbn [lrun]. destruct (lstep s i) as [[s1 t1]|]; [|discriminate]. cbn [option_bind]. destruct (lrun s1 r) as [[s2 t2]|] eqn:E; [|discriminate]. cbn [option_bind]. intros [= <- <-]. exists s1, t1, t2. auto.
Qed.
Lemma lrun_split a : forall s b s' t, lrun s (a ++ b) = Some (s', t) -> exists s1 t1 t2, lrun s a = Some (s1, t1) /\ lrun s1 b = Some (s', t2) /\ t = t1 ++ t2.
Proof.
  induction a as [|i a IH]; intros s b s' t H; [exists s, [], t; auto|]. cbn [app] in H. apply lrun_cons in H. destruct H as (s1 & t1 & t2 & H1 & H2 & ->).
  destruct (IH _ _ _ _ H2) as (s2 & t3 & t4 & H3 & H4 & ->). exists s2, (t1 ++ t3), t4. cbn [lrun]. rewrite H1. cbn [option_bind]. rewrite H3. cbn [option_bind]. rewrite app_assoc. auto.
Qed.
Lemma lrun_join a : forall s b s1 t1 s' t2, lrun s a = Some (s1, t1) -> lrun s1 b = Some (s', t2) -> lrun s (a ++ b) = Some (s', t1 ++ t2).
Proof.
  induction a as [|i a IH]; intros s b s1 t1 s' t2 H1 H2; [cbn in H1; injection H1 as <- <-; exact H2|]. apply lrun_cons in H1. destruct H1 as (s3 & t3 & t4 & E1 & E2 & ->).
  cbn [app lrun]. rewrite E1. cbn [option_bind]. rewrite (IH _ _ _ _ _ _ E2 H2). cbn [option_bind]. rewrite app_assoc. reflexivity.
Qed.

(** ** Items without tokens *)
Definition is_pre (i : item) : bool := match i with ISp | IBr | IPop | IMark => true | _ => false end.
Definition gap_of (l : list item) : list bool := flat_map (fun i => match i with ISp => [false] | IBr => [true] | _ => [] end) l.
Lemma gap_text l : forallb is_pre l = true -> texts l = gtext lf (gap_of l).
Proof.
  induction l as [|i l IH]; intros H; [reflexivity|]. cbn [forallb] in H. apply andb_true_iff in H. destruct H as [H1 H2]. rewrite texts_cons, (IH H2).
  destruct i; try discriminate H1; reflexivity.
Qed.
Lemma split_items (l : list item) : exists a r, l = a ++ r /\ forallb is_pre a = true /\ match r with [] => True | i :: _ => is_pre i = false end.
Proof.
  induction l as [|i l (a & r & -> & H1 & H2)]; [exists [], []; auto|]. destruct (is_pre i) eqn:E; [exists (i :: a), r|exists [], (i :: a ++ r); auto].
  split; [reflexivity|]. split; [cbn [forallb]; rewrite E; exact H1|exact H2].
Qed.
Definition al_ok (ls : lstate) (a : bool) : Prop :=
  match ln ls with Gapped _ broken => (broken = true -> lv ls = 0 -> lal ls = true /\ a = true) /\ (broken = false -> lal ls = false) | _ => a = lal ls end.
Lemma pre_al a : forallb is_pre a = true -> forall ls ls1 tk al, lrun ls a = Some (ls1, tk) -> al_ok ls al -> lv ls1 = lv ls /\ al_ok ls1 (al || (lv ls =? 0) && gnl (gap_of a)).
Proof.
  induction a as [|i a IH]; intros Hp ls ls1 tk al H Ha.
  - cbn [lrun] in H. injection H as <- _. cbn [gap_of flat_map gnl existsb]. rewrite andb_false_r, orb_false_r. auto.
  - cbn [forallb] in Hp. apply andb_true_iff in Hp. destruct Hp as [Hp1 Hp2]. apply lrun_cons in H. destruct H as (s1 & t1 & t2 & E1 & E2 & _).
    assert (X : lv s1 = lv ls /\ al_ok s1 (al || (lv ls =? 0) && gnl (gap_of [i]))).
    { destruct i; try discriminate Hp1; cbn [LayItems.lstep] in E1.
      - destruct (guard _) as [[]|]; [|discriminate]. cbn [option_bind] in E1. destruct (walk [32] ls) as [x|] eqn:W; [|discriminate]. cbn [option_bind] in E1. injection E1 as <- _. apply walk_is in W. destruct W as (W1 & _ & _ & _ & W2 & _ & W3).
        cbn [then_ lv gap_of flat_map app gnl existsb orb]. rewrite andb_false_r, orb_false_r. split; [exact W1|]. unfold al_ok in *. cbn [then_ lv lal ln]. rewrite W1, W2. destruct (ln ls); cbn [spaced]; auto.
      - destruct (guard _) as [[]|]; [|discriminate]. cbn [option_bind] in E1. destruct (walk lf ls) as [x|] eqn:W; [|discriminate]. cbn [option_bind] in E1. injection E1 as <- _. apply walk_is in W. destruct W as (W1 & _ & _ & _ & W2 & _ & W3).
        cbn [then_ lv gap_of flat_map app gnl existsb orb]. rewrite andb_true_r. split; [exact W1|]. unfold al_ok in *. cbn [then_ lv lal ln]. rewrite W1. destruct (lv ls =? 0) eqn:Ev.
        + rewrite orb_true_r. destruct (ln ls); cbn [broken_]; auto.
        + rewrite orb_false_r. destruct (ln ls); cbn [broken_]; auto. split; [intros _ D; lia|discriminate].
      - destruct (guard _) as [[]|]; [|discriminate]. cbn [option_bind] in E1. destruct (lli ls); [discriminate|]. injection E1 as <- _. cbn [lv gap_of flat_map gnl existsb app]. rewrite andb_false_r, orb_false_r. auto.
      - destruct (guard _) as [[]|]; [|discriminate]. cbn [option_bind] in E1. injection E1 as <- _. cbn [lv gap_of flat_map gnl existsb app]. rewrite andb_false_r, orb_false_r. auto. }
    destruct X as [X1 X2]. destruct (IH Hp2 _ _ _ _ E2 X2) as [Y1 Y2]. split; [congruence|]. rewrite X1 in Y2.
    replace (al || (lv ls =? 0) && gnl (gap_of (i :: a))) with (al || (lv ls =? 0) && gnl (gap_of [i]) || (lv ls =? 0) && gnl (gap_of a)); [exact Y2|].
    assert (gnl (gap_of (i :: a)) = gnl (gap_of [i]) || gnl (gap_of a)) as ->; [|destruct al, (lv ls =? 0), (gnl (gap_of [i])), (gnl (gap_of a)); reflexivity].
    destruct i; try discriminate Hp1; reflexivity.
Qed.

Section text.
Variable T : str.
Notation Hx := (Hx T).
Lemma cr_lf p : snd (mk (p ++ lf)) = true -> lf = [13].
Proof. rewrite LexBase.mk_app. destruct (mk p) as [m cr]. destruct Hlf as [-> |[-> | ->]]; cbn [fold_left step_mark fst snd]; try reflexivity; destruct cr; cbn; intros D; try discriminate D; destruct (cr && _); discriminate D. Qed.
Lemma hd_pre a r : forallb is_pre a = true -> lf = [13] -> hd 0 r <> 10 -> hd 0 (texts a ++ r) <> 10.
Proof.
  intros Hp E Hr. induction a as [|i a IH]; [exact Hr|]. cbn [forallb] in Hp. apply andb_true_iff in Hp. destruct Hp as [Hp1 Hp2]. rewrite texts_cons. destruct i; try discriminate Hp1; cbn [LayItems.itext app]; try discriminate; auto.
  rewrite E. discriminate.
Qed.
Lemma pre_run a r : forallb is_pre a = true -> hd 0 r <> 10 -> forall ls ls1 tk p s, lrun ls a = Some (ls1, tk) -> (snd (mk p) = true -> hd 0 (texts a ++ r) <> 10) -> R0 ls p s -> R0 ls1 (p ++ texts a) s /\ E ls1 s = E ls s ++ tk.
Proof.
  intros Hp Hr. induction a as [|i a IH]; intros ls ls1 tk p s H Hc R.
  - cbn [lrun] in H. injection H as <- <-. cbn [texts flat_map]. rewrite !app_nil_r. auto.
  - cbn [forallb] in Hp. apply andb_true_iff in Hp. destruct Hp as [Hp1 Hp2]. apply lrun_cons in H. destruct H as (s1 & t1 & t2 & E1 & E2 & ->).
    assert (X : R0 s1 (p ++ itext i) s /\ E s1 s = E ls s ++ t1 /\ (snd (mk (p ++ itext i)) = true -> hd 0 (texts a ++ r) <> 10)).
    { destruct i; try discriminate Hp1; cbn [LayItems.lstep] in E1; cbn [LayItems.itext].
      - destruct (guard _) as [[]|]; [|discriminate]. cbn [option_bind] in E1. destruct (walk [32] ls) as [x|] eqn:W; [|discriminate]. cbn [option_bind] in E1. injection E1 as <- <-. destruct (walk_at _ _ _ _ _ R W) as [R1 E3]; [discriminate|]. rewrite app_nil_r.
        split; [destruct R1; constructor; auto|]. split; [exact E3|]. intros D. discriminate (eq_trans (eq_sym D) (proj2 (LexBase.position_plain p 32 eq_refl))).
      - destruct (guard _) as [[]|]; [|discriminate]. cbn [option_bind] in E1. destruct (walk lf ls) as [x|] eqn:W; [|discriminate]. cbn [option_bind] in E1. injection E1 as <- <-. destruct (walk_at _ _ _ _ _ R W) as [R1 E3].
        { intros _ D. specialize (Hc D). rewrite texts_cons in Hc. cbn [LayItems.itext] in Hc. clear -Hc Hlf. destruct Hlf as [-> |[-> | ->]]; exact Hc. }
        rewrite app_nil_r. split; [destruct R1; constructor; auto|]. split; [exact E3|]. intros D. apply hd_pre; [exact Hp2|exact (cr_lf _ D)|exact Hr].
      - destruct (guard _) as [[]|] eqn:Eg; [|discriminate]. cbn [option_bind] in E1. destruct (lli ls) as [|j l] eqn:El; [discriminate|]. injection E1 as <- <-. rewrite app_nil_r. unfold guard in Eg. destruct ((lv ls =? 0) && negb (live (lsl ls)) && negb (lsoon ls)) eqn:G; [|discriminate].
        assert (Nl : live (lsl ls) = false) by (destruct (live (lsl ls)); [rewrite andb_false_r in G; discriminate|reflexivity]).
        split; [|split; [|exact Hc]].
        + pose proof (real_live _ Nl) as Er. destruct R. constructor; auto; cbn [lsl lli lpop lv].
          * unfold real in *. cbn [lsl lli lpop]. rewrite (not_live_roll _ Nl) in *. rewrite r_ind, El, <- app_assoc. reflexivity.
          * apply Forall_forall. intros x Hx1. assert (Nx : is_live x = false) by (destruct (is_live x) eqn:Ex; [|reflexivity]; rewrite <- Nl; symmetry; apply existsb_exists; eauto). destruct x; try discriminate Nx; exact Logic.I.
          * rewrite Nl. discriminate.
        + unfold E. cbn [lsl lpop]. rewrite app_length, repeat_app. cbn [length repeat]. rewrite app_assoc. reflexivity.
      - destruct (guard _) as [[]|]; [|discriminate]. cbn [option_bind] in E1. injection E1 as <- <-. rewrite !app_nil_r. split; [destruct R; constructor; auto|]. split; [reflexivity|exact Hc]. }
    destruct X as (X1 & X2 & X3). destruct (IH Hp2 _ _ _ _ _ E2 X3 X1) as [Y1 Y2]. rewrite texts_cons, app_assoc. split; [exact Y1|]. rewrite Y2, X2, app_assoc. reflexivity.
Qed.

(** ** Before a token *)
Record Rx (ls : lstate) (p r : str) (s : sst) : Prop := { x_hx : Hx p r s; x_r0 : R0 ls p s; x_al : al_ok ls (simple_key_allowed s) }.
Record kept (s s' : sst) : Prop := { kp_parsed : tokens_parsed s' = tokens_parsed s; kp_end : stream_end_produced s' = stream_end_produced s; kp_av : token_available s' = token_available s }.
Lemma kept_trans a b c : kept a b -> kept b c -> kept a c. Proof. intros [A1 A2 A3] [B1 B2 B3]. constructor; congruence. Qed.
Lemma Hx_any k p r s : Hx p r s -> ideal s -> LexBase.H [] T k p r s.
Proof. intros H Hi. pose proof (Hx_buf _ _ _ _ H Hi) as Eb. destruct H as [A B C D F]. constructor; auto. Qed.
Lemma same_prefix (p p' r : str) : p ++ r = p' ++ r -> p = p'. Proof. apply app_inv_tail. Qed.
Lemma to_next a r ls ls1 tk p s : forallb is_pre a = true -> tok_start r -> Rx ls p (texts a ++ r) s -> lrun ls a = Some (ls1, tk) ->
  exists al, scan_to_next_token s = (Ok tt, at_ (set_simple_key_allowed al s) r (position (p ++ texts a))) /\ Rx ls1 (p ++ texts a) r (at_ (set_simple_key_allowed al s) r (position (p ++ texts a))) /\
    E ls1 (at_ (set_simple_key_allowed al s) r (position (p ++ texts a))) = E ls s ++ tk.
Proof.
  intros Hp Ht [Hh R Ha] Hr. pose proof (r_ideal _ _ _ R) as Hi.
  assert (Hd : hd 0 r <> 10) by (destruct r as [|c r]; [discriminate|]; destruct Ht as (_ & Hb & _); intros D; cbn [hd] in D; subst c; discriminate Hb).
  destruct (pre_run a r Hp Hd _ _ _ p s Hr) as [R1 E1]; [exact (LexBase.h_cr _ _ _ _ _ _ Hh)|exact R|].
  destruct (pre_al a Hp _ _ _ _ Hr Ha) as [V1 Ha1].
  pose proof (Hx_at _ _ _ _ Hh Hi) as Es. rewrite (gap_text a Hp) in Es.
  destruct (gap_at lf r Hlf Ht (length (gap_of a)) (gap_of a) s (position p) false (le_n _) Hi ltac:(discriminate)) as (al & m' & Eg & _ & _ & _ & Eal). rewrite <- Es in Eg.
  exists al. set (s1 := at_ (set_simple_key_allowed al s) r m') in *.
  assert (Hx1 : Hx (p ++ texts a) r s1).
  { pose proof (LexScan.L_to_next [] T 0 p (texts a ++ r) s Hh) as P. unfold LexBase.pc in P. rewrite Eg in P. destruct P as (g & r' & _ & H1 & _).
    assert (Eb : r = r') by (apply (Hx_buf T (p ++ g) r' s1); [eapply LexBase.H_less; [|exact H1]; lia|exact Hi]). subst r'.
    assert (Ep : p ++ g = p ++ texts a) by (apply (same_prefix _ _ r); refine (eq_trans (eq_sym (LexBase.h_T _ _ _ _ _ _ H1)) _); rewrite <- app_assoc; exact (LexBase.h_T _ _ _ _ _ _ Hh)).
    rewrite <- Ep. eapply LexBase.H_less; [|exact H1]. lia. }
  pose proof (Hx_pos _ _ _ _ Hx1) as Pm. change (pos s1) with m' in Pm. rewrite <- Pm. fold s1. split; [exact Eg|].
  destruct (R0_same ls1 ls1 (p ++ texts a) s s1 R1) as [R2 E2]; auto. split; [|rewrite E2; exact E1]. constructor; [exact Hx1|exact R2|].
  change (simple_key_allowed s1) with al. rewrite Eal, (r_level _ _ _ R). exact Ha1.
Qed.

(** ** Tokens of one character *)
Lemma R0_then a n ls p s : R0 ls p s -> R0 (then_ a n ls) p s. Proof. intros []. constructor; auto. Qed.
Lemma R0_allow a ls p s : R0 ls p s -> R0 ls p (set_simple_key_allowed a s). Proof. intros []. constructor; auto. Qed.
Lemma indicator_x d c r ls ls1 p s : R0 ls p s -> lpop ls = [] -> Hx p (c :: r) s -> breaks_line c = false -> walk [c] ls = Some ls1 ->
  exists s', fetch_indicator 1 d s = (Ok tt, s') /\ Hx (p ++ [c]) r s' /\ R0 ls1 (p ++ [c]) s' /\ E ls1 s' = E ls s ++ [d] /\ kept s s' /\ simple_key_allowed s' = simple_key_allowed s.
Proof.
  intros R Hp Hh Hc W. pose proof (r_ideal _ _ _ R) as Hi. pose proof (Hx_buf _ _ _ _ Hh Hi) as Eb.
  pose proof (LexBase.take _ _ _ _ _ _ _ _ Hh Eb Hc) as H1. cbn [Nat.sub] in H1. set (s1 := set_pos (advance (len_utf8 c) (pos s)) (set_buffer r s)) in *.
  destruct (walk_at [c] ls ls1 p s R W) as [R1 E1]; [unfold has_break; cbn [existsb]; rewrite Hc; discriminate|].
  destruct (R0_same ls1 ls1 (p ++ [c]) s s1 R1) as [R2 E2]; auto. apply walk_is in W. destruct W as (_ & _ & _ & W4 & _).
  destruct (push_at ls1 (p ++ [c]) s1 [Mk_token d (pos s) (pos s1)] R2) as [R3 E3]; [congruence|].
  exists (set_tokens (tokens s1 ++ [Mk_token d (pos s) (pos s1)]) s1). split.
  - assert (K : skip_char s = (Ok tt, s1)) by (unfold skip_char; rewrite Eb; reflexivity).
    assert (K1 : skip_chars 1 s = (Ok tt, s1)) by (cbn [skip_chars]; rewrite (bok _ _ _ _ _ K); reflexivity).
    unfold fetch_indicator. change (bind (gets pos) ?k s) with (k (pos s) s). cbv beta. rewrite (bok _ _ _ _ _ K1). reflexivity.
  - split; [eapply Hx_ext; [exact H1|reflexivity..]|]. split; [exact R3|]. split; [rewrite E3, E2, E1; reflexivity|]. split; [constructor; reflexivity|reflexivity].
Qed.
Definition done (f : M sst unit) (ls ls' : lstate) (tk : list token_data) (p w r : str) (s : sst) : Prop :=
  exists s', f s = (Ok tt, s') /\ Rx ls' (p ++ w) r s' /\ E ls' s' = E ls s ++ tk /\ kept s s'.
Lemma finish a n d c r ls ls1 p s tk ls0 s0 : R0 ls p s -> lpop ls = [] -> Hx p (c :: r) s -> breaks_line c = false -> walk [c] ls = Some ls1 -> simple_key_allowed s = a ->
  (match n with Gapped _ _ => False | _ => True end) -> E ls s = E ls0 s0 ++ tk -> kept s0 s -> exists s', fetch_indicator 1 d s = (Ok tt, s') /\ Rx (then_ a n ls1) (p ++ [c]) r s' /\ E (then_ a n ls1) s' = E ls0 s0 ++ tk ++ [d] /\ kept s0 s'.
Proof.
  intros R Hp Hh Hc W Ha Hn He Hk. destruct (indicator_x d c r ls ls1 p s R Hp Hh Hc W) as (s' & E1 & H1 & R1 & E2 & K1 & A1). exists s'. split; [exact E1|]. split; [|split; [|eapply kept_trans; eassumption]].
  - constructor; [exact H1|apply R0_then, R1|]. unfold al_ok. cbn [then_ ln lal]. rewrite A1, Ha. destruct n; tauto.
  - change (E (then_ a n ls1) s') with (E ls1 s'). rewrite E2, He, app_assoc. reflexivity.
Qed.
Lemma save_pop ls ls1 tk : save ls = Some (ls1, tk) -> lv ls1 = lv ls /\ lpop ls1 = lpop ls /\ lcol ls1 = lcol ls.
Proof.
  unfold save. destruct (lsl ls); [discriminate|]. destruct (lsoon ls).
  - destruct (_ && _); [|discriminate]. destruct (lv ls =? 0) eqn:Ev; [|intros [= <- _]; auto]. destruct (_ <? _)%Z; [destruct (_ <=? _); [|discriminate]; intros [= <- _]; auto|]. destruct (_ =? _)%Z; [|discriminate]. intros [= <- _]. auto.
  - destruct (lal ls); [|intros [= <- _]; auto]. destruct (_ || _); [discriminate|]. intros [= <- _]. auto.
Qed.
Lemma unsave_is ls ls1 : unsave ls = Some ls1 -> exists r, ls1 = with_slots (lli ls) (SOff :: r) ls /\ exists sl, lsl ls = sl :: r /\ is_live sl = false /\ lsoon ls = false.
Proof. unfold unsave. destruct (lsl ls) as [|sl r]; [discriminate|]. destruct (is_live sl || lsoon ls) eqn:E; [discriminate|]. intros [= <-]. exists r. split; [reflexivity|]. exists sl. apply orb_false_iff in E. tauto. Qed.

Section tok.
Variables (p rest : str) (ls : lstate) (s : sst).
Hypotheses (R : R0 ls p s) (Hp : lpop ls = []).
Lemma Hx_keys w ks : Hx p w s -> Hx p w (set_simple_keys ks s). Proof. intros H. eapply Hx_ext; [exact H|reflexivity..]. Qed.
Lemma open_x d c ls2 tk ls3 : Hx p (c :: rest) s -> breaks_line c = false -> simple_key_allowed s = lal ls -> save ls = Some (ls2, tk) -> lv ls <? 2147483647 = true ->
  walk [c] (level (lv ls + 1) (slots_to (SOff :: lsl ls2) ls2)) = Some ls3 ->
  done (fetch_flow_collection_start d) ls (then_ true Free ls3) (tk ++ [d]) p [c] rest s.
Proof.
  intros Hh Hc Ha Sv Hl W. destruct (save_at _ _ _ _ _ R Hp Ha (Hx_pos _ _ _ _ Hh) Sv) as (ks & E1 & R1 & E2). destruct (save_pop _ _ _ Sv) as (V1 & V2 & _).
  unfold done, fetch_flow_collection_start. rewrite (bok _ _ _ _ _ E1). set (s1 := set_simple_keys ks s) in *.
  set (s2 := set_simple_key_allowed true (set_flow_level (flow_level s1 + 1) (set_simple_keys (Mk_sk false false 0 mark0 :: simple_keys s1) s1))).
  assert (E3 : increase_flow_level s1 = (Ok tt, set_flow_level (flow_level s1 + 1) (set_simple_keys (Mk_sk false false 0 mark0 :: simple_keys s1) s1))).
  { unfold increase_flow_level, modify, bind, gets. match goal with |- (if ?q then _ else _) _ = _ => replace q with false by (change (false = (flow_level s1 =? 2147483647)); rewrite (r_level _ _ _ R1), V1; lia) end. reflexivity. }
  rewrite (bok _ _ _ _ _ E3), (bmod _ _ _ s2) by reflexivity.
  set (lsx := level (lv ls + 1) (slots_to (SOff :: lsl ls2) ls2)) in *.
  assert (R2 : R0 lsx p s2).
  { destruct R1. constructor; auto; subst lsx; cbn [level slots_to lsl lli lpop lv].
    - change (flow_level s1 + 1 = lv ls + 1). rewrite r_level, V1. reflexivity.
    - cbn [length]. rewrite V1 in r_count. lia.
    - change (simple_keys s2) with (Mk_sk false false 0 mark0 :: simple_keys s1). constructor; [intros D; discriminate D|exact r_keys].
    - constructor; [exact Logic.I|assumption]. }
  assert (E4 : E lsx s2 = E ls s ++ tk) by (rewrite <- E2; reflexivity).
  destruct (finish true Free d c rest lsx ls3 p s2 tk ls s R2) as (s' & F1 & F2 & F3 & F4); auto.
  - subst lsx. cbn [level slots_to lpop]. congruence.
  - eapply Hx_ext; [exact Hh|reflexivity..].
  - constructor; reflexivity.
  - exists s'. auto.
Qed.
Lemma close_x d c ls2 ls3 : Hx p (c :: rest) s -> breaks_line c = false -> unsave ls = Some ls2 -> 0 <? lv ls = true ->
  walk [c] (level (lv ls - 1) (slots_to (tl (lsl ls2)) ls2)) = Some ls3 ->
  done (fetch_flow_collection_end d) ls (then_ false (Sep true) ls3) [d] p [c] rest s.
Proof.
  intros Hh Hc Us Hl W. destruct (unsave_at _ _ _ _ R Us) as (k & ks & Ek & E1 & R1 & E2). destruct (unsave_is _ _ Us) as (r & El2 & _).
  unfold done, fetch_flow_collection_end. rewrite (bok _ _ _ _ _ E1). set (s1 := set_simple_keys (sk_off k :: ks) s) in *.
  assert (Lv2 : lv ls2 = lv ls) by (rewrite El2; reflexivity).
  assert (E3 : decrease_flow_level s1 = (Ok tt, set_simple_keys ks (set_flow_level (flow_level s1 - 1) s1))).
  { unfold decrease_flow_level, modify. replace (flow_level s1 =? 0) with false by (rewrite (r_level _ _ _ R1); lia). reflexivity. }
  set (s2 := set_simple_key_allowed false (set_simple_keys ks (set_flow_level (flow_level s1 - 1) s1))).
  rewrite (bok _ _ _ _ _ E3), (bmod _ _ _ s2) by reflexivity.
  set (lsx := level (lv ls - 1) (slots_to (tl (lsl ls2)) ls2)) in *.
  assert (El : lsl ls2 = SOff :: r) by (rewrite El2; reflexivity).
  assert (R2 : R0 lsx p s2).
  { destruct R1. constructor; auto; subst lsx; cbn [level slots_to lsl lli lpop lv]; rewrite El in *; cbn [tl].
    - change (flow_level s1 - 1 = lv ls - 1). rewrite r_level, Lv2. reflexivity.
    - unfold real in *. cbn [level slots_to lsl lli]. rewrite El in r_ind. cbn [existsb is_roll orb] in r_ind. exact r_ind.
    - cbn [length] in r_count. rewrite Lv2 in r_count. lia.
    - change (simple_keys s2) with ks. change (simple_keys s1) with (sk_off k :: ks) in r_keys. inversion r_keys; subst; assumption.
    - inversion r_kinds; subst; assumption.
    - exact r_one.
    - exact r_pop. }
  assert (E4 : E lsx s2 = E ls s ++ []) by (rewrite app_nil_r, <- E2; unfold E; subst lsx; cbn [level slots_to lsl lpop]; rewrite El; reflexivity).
  destruct (finish false (Sep true) d c rest lsx ls3 p s2 [] ls s R2) as (s' & F1 & F2 & F3 & F4); auto.
  - subst lsx. cbn [level slots_to lpop]. rewrite El2. exact Hp.
  - eapply Hx_ext; [exact Hh|reflexivity..].
  - constructor; reflexivity.
  - exists s'. auto.
Qed.
Lemma comma_x ls2 ls3 : Hx p (44 :: rest) s -> unsave ls = Some ls2 -> walk [44] ls2 = Some ls3 -> done fetch_flow_entry ls (then_ true Free ls3) [TFlowEntry] p [44] rest s.
Proof.
  intros Hh Us W. destruct (unsave_at _ _ _ _ R Us) as (k & ks & Ek & E1 & R1 & E2). destruct (unsave_is _ _ Us) as (r & El2 & _).
  unfold done, fetch_flow_entry. rewrite (bok _ _ _ _ _ E1). set (s1 := set_simple_keys (sk_off k :: ks) s) in *.
  rewrite (bmod _ _ _ (set_simple_key_allowed true s1)) by reflexivity.
  destruct (finish true Free TFlowEntry 44 rest ls2 ls3 p (set_simple_key_allowed true s1) [] ls s (R0_allow _ _ _ _ R1)) as (s' & F1 & F2 & F3 & F4); auto.
  - rewrite El2. exact Hp.
  - eapply Hx_ext; [exact Hh|reflexivity..].
  - rewrite app_nil_r. exact E2.
  - constructor; reflexivity.
  - exists s'. auto.
Qed.
Lemma roll_is d ls2 tk : roll d ls = Some (ls2, tk) -> lv ls2 = lv ls /\ lpop ls2 = lpop ls /\ lsl ls2 = lsl ls /\ lal ls = true.
Proof. unfold roll. destruct (lal ls); [|discriminate]. cbn [negb]. destruct (_ <? _)%Z; [destruct (_ <=? _); [|discriminate]; intros [= <- _]; auto|]. destruct (_ =? _)%Z; [|discriminate]. intros [= <- _]. auto. Qed.
Lemma one_off sl r : lv ls = 0 -> lsl ls = sl :: r -> is_live sl = false -> live (lsl ls) = false.
Proof. intros Hv Es Hl. destruct (one_slot _ _ _ R Hv) as (sl' & k & E1 & _). rewrite Es in E1. injection E1 as -> ->. rewrite Es. cbn. rewrite Hl. reflexivity. Qed.
Lemma dash_x ls2 tk ls3 ls4 : Hx p (45 :: rest) s -> lv ls = 0 -> simple_key_allowed s = lal ls -> roll TBlockSequenceStart ls = Some (ls2, tk) -> unsave ls2 = Some ls3 -> walk [45] ls3 = Some ls4 ->
  done fetch_block_entry ls (then_ true Blank ls4) (tk ++ [TBlockEntry]) p [45] rest s.
Proof.
  intros Hh Hv Ha Ro Us W. destruct (roll_is _ _ _ Ro) as (V1 & V2 & V3 & V4). destruct (unsave_is _ _ Us) as (r & El3 & sl & Es & Hl & _). rewrite V3 in Es.
  destruct (roll_at _ _ _ _ _ _ R Hp Hv (one_off _ _ Hv Es Hl) (Hx_pos _ _ _ _ Hh) Ro) as (i & st & l & E1 & R1 & E2). set (s1 := set_tokens (tokens s ++ l) (set_indents st (set_indent i s))) in *.
  destruct (unsave_at _ _ _ _ R1 Us) as (k & ks & Ek & E3 & R2 & E4). set (s2 := set_simple_keys (sk_off k :: ks) s1) in *.
  unfold done, fetch_block_entry. rewrite bgt, (r_level _ _ _ R), Hv, Ha, V4. cbn [N.eqb negb]. rewrite (bok _ _ _ _ _ E1), (bok _ _ _ _ _ E3), (bmod _ _ _ (set_simple_key_allowed true s2)) by reflexivity.
  destruct (finish true Blank TBlockEntry 45 rest ls3 ls4 p (set_simple_key_allowed true s2) tk ls s (R0_allow _ _ _ _ R2)) as (s' & F1 & F2 & F3 & F4); auto.
  - rewrite El3. cbn [with_slots lpop]. congruence.
  - eapply Hx_ext; [exact Hh|reflexivity..].
  - change (E ls3 (set_simple_key_allowed true s2)) with (E ls3 s2). rewrite E4, E2. reflexivity.
  - constructor; reflexivity.
  - exists s'. auto.
Qed.
Lemma key_x ls2 tk ls3 ls4 : Hx p (63 :: rest) s -> simple_key_allowed s = lal ls -> (if lv ls =? 0 then roll TBlockMappingStart ls else Some (ls, [])) = Some (ls2, tk) -> unsave ls2 = Some ls3 -> walk [63] ls3 = Some ls4 ->
  done fetch_key ls (then_ (lv ls =? 0) Blank ls4) (tk ++ [Base.TKey]) p [63] rest s.
Proof.
  intros Hh Ha Ro Us W. unfold done, fetch_key. rewrite bgt, (r_level _ _ _ R). destruct (lv ls =? 0) eqn:Ev.
  - assert (Hv : lv ls = 0) by lia. destruct (roll_is _ _ _ Ro) as (V1 & V2 & V3 & V4). destruct (unsave_is _ _ Us) as (r & El3 & sl & Es & Hl & _). rewrite V3 in Es.
    destruct (roll_at _ _ _ _ _ _ R Hp Hv (one_off _ _ Hv Es Hl) (Hx_pos _ _ _ _ Hh) Ro) as (i & st & l & E1 & R1 & E2). set (s1 := set_tokens (tokens s ++ l) (set_indents st (set_indent i s))) in *.
    destruct (unsave_at _ _ _ _ R1 Us) as (k & ks & Ek & E3 & R2 & E4). set (s2 := set_simple_keys (sk_off k :: ks) s1) in *.
    rewrite Ha, V4. cbn [negb]. rewrite (bok _ _ _ _ _ E1), (bok _ _ _ _ _ E3), (bmod _ _ _ (set_simple_key_allowed true s2)).
    2: { change (flow_level s2) with (flow_level s). rewrite (r_level _ _ _ R), Ev. reflexivity. }
    destruct (finish true Blank Base.TKey 63 rest ls3 ls4 p (set_simple_key_allowed true s2) tk ls s (R0_allow _ _ _ _ R2)) as (s' & F1 & F2 & F3 & F4); auto.
    + rewrite El3. cbn [with_slots lpop]. congruence.
    + eapply Hx_ext; [exact Hh|reflexivity..].
    + change (E ls3 (set_simple_key_allowed true s2)) with (E ls3 s2). rewrite E4, E2. reflexivity.
    + constructor; reflexivity.
    + exists s'. auto.
  - injection Ro as <- <-. destruct (unsave_is _ _ Us) as (r & El3 & sl & Es & Hl & _).
    destruct (unsave_at _ _ _ _ R Us) as (k & ks & Ek & E3 & R2 & E4). set (s2 := set_simple_keys (sk_off k :: ks) s) in *.
    rewrite (bok (ret tt) _ _ tt _ eq_refl), (bok _ _ _ _ _ E3), (bmod _ _ _ (set_simple_key_allowed false s2)).
    2: { change (flow_level s2) with (flow_level s). rewrite (r_level _ _ _ R), Ev. reflexivity. }
    destruct (finish false Blank Base.TKey 63 rest ls3 ls4 p (set_simple_key_allowed false s2) [] ls s (R0_allow _ _ _ _ R2)) as (s' & F1 & F2 & F3 & F4); auto.
    + rewrite El3. exact Hp.
    + eapply Hx_ext; [exact Hh|reflexivity..].
    + rewrite app_nil_r. exact E4.
    + constructor; reflexivity.
    + exists s'. auto.
Qed.
Lemma one_live kd c u r : lsl ls = SLive kd c u :: r -> live r = false.
Proof. intros Es. apply filter_live. pose proof (r_one _ _ _ R) as H. rewrite Es in H. cbn [filter is_live length] in H. lia. Qed.
Lemma kinds_off li sl : live sl = false -> Forall (kind_ok li) sl.
Proof. intros Nl. apply Forall_forall. intros x Hx1. assert (Nx : is_live x = false) by (destruct (is_live x) eqn:Ex; [|reflexivity]; rewrite <- Nl; symmetry; apply existsb_exists; eauto). destruct x; try discriminate Nx; exact Logic.I. Qed.
(** A simple key has been found: the tokens before it are put into the queue. *)
Lemma value_live_x kd c u r ls2 : Hx p (58 :: rest) s -> lsl ls = SLive kd c u :: r -> Bool.eqb (lv ls =? 0) (match kd with KFlow => false | _ => true end) = true ->
  walk [58] (slots_to (SOff :: r) ls) = Some ls2 -> done fetch_value ls (then_ false Blank ls2) [TValue] p [58] rest s.
Proof.
  intros Hh Es Hg W. destruct (head_slot _ _ _ R) as (sl & r' & k & ks & Es' & Ek & K1 & K2). rewrite Es in Es'. injection Es' as <- <-. cbn [key_rel] in K1. destruct K1 as (P1 & P2 & P3 & P4 & P5 & P6).
  pose proof (one_live _ _ _ _ Es) as Nl. unfold done, fetch_value. rewrite bgt, Ek, P1.
  set (j := N.to_nat (sk_token k - tokens_parsed s)). assert (Hj : (j <= length (tokens s))%nat) by (unfold next_token in P6; subst j; lia).
  set (tk1 := Mk_token Base.TKey (sk_mark k) (sk_mark k)). set (s1 := set_tokens (firstn j (tokens s) ++ tk1 :: skipn j (tokens s)) s).
  assert (E1 : insert_token (sk_token k) tk1 s = (Ok tt, s1)).
  { unfold insert_token. replace (sk_token k <? tokens_parsed s) with false by lia. cbv zeta. fold j. replace (Nat.leb j (length (tokens s))) with true by (symmetry; apply Nat.leb_le; exact Hj). reflexivity. }
  assert (Efs : forall d x, map t_data (firstn j (tokens s) ++ x ++ skipn j (tokens s)) = d -> E ls s = firstn j (map t_data (tokens s)) ++ ins kd ++ skipn j (map t_data (tokens s)) -> map t_data x = ins kd -> E ls s = d).
  { intros d x <- -> <-. rewrite !map_app, firstn_map, skipn_map. reflexivity. }
  assert (EE : E ls s = firstn j (map t_data (tokens s)) ++ ins kd ++ skipn j (map t_data (tokens s))).
  { unfold E. rewrite Hp, Es, Ek. cbn [live_of put length repeat]. rewrite app_nil_r. reflexivity. }
  set (lsx := slots_to (SOff :: r) ls) in *. set (s2 := set_simple_keys (sk_off k :: ks) s1).
  assert (Nlx : live (SOff :: r) = false) by exact Nl.
  assert (Keys : forall n q, Forall2 (key_rel p n q) (SOff :: r) (sk_off k :: ks)).
  { intros n q. constructor; [intros D; discriminate D|]. clear -K2 Nl. revert Nl. induction K2 as [|x y l l' Hxy _ IH]; intros Nl; [constructor|]. cbn [live existsb] in Nl. apply orb_false_iff in Nl. destruct Nl as [N1 N2]. constructor; [|exact (IH N2)]. destruct x; try discriminate N1; exact Hxy. }
  assert (X : exists s3, roll_indent (Z.of_N (m_col (sk_mark k))) (Some (sk_token k)) TBlockMappingStart (sk_mark k) s2 = (Ok tt, s3) /\ R0 lsx p s3 /\ E lsx s3 = E ls s /\ Hx p (58 :: rest) s3 /\ kept s s3).
  { assert (Real : real ls = if is_roll (SLive kd c u) then tl (lli ls) else lli ls) by (unfold real; rewrite Es; cbn [existsb]; rewrite (not_live_roll _ Nl), orb_false_r; reflexivity).
    pose proof (r_ind _ _ _ R) as Hin. rewrite Hp, Real in Hin. cbn [app] in Hin. pose proof (r_kinds _ _ _ R) as Hkd. rewrite Es in Hkd. pose proof (Forall_inv Hkd) as Hkd1.
    unfold roll_indent. rewrite bgt. change (flow_level s2) with (flow_level s). change (indent s2) with (indent s). rewrite (r_level _ _ _ R).
    assert (Rx2 : is_roll (SLive kd c u) = false -> R0 lsx p s2 /\ E lsx s2 = E ls s).
    { intros Nr. rewrite Nr in Hin. split.
      - destruct R. constructor; auto; cbn [slots_to lsx lsl lli lpop lv].
        + unfold real. cbn [slots_to lsx lsl lli]. rewrite (not_live_roll _ Nlx), Hp. exact Hin.
        + rewrite Es in r_count. cbn [length] in *. exact r_count.
        + apply kinds_off, Nlx.
        + rewrite (not_live_filter _ Nlx). cbn. lia.
      - unfold E at 1. cbn [lsx slots_to lsl lpop]. rewrite Hp. change (simple_keys s2) with (sk_off k :: ks). rewrite (not_live_of _ Nlx). cbn [put length repeat]. rewrite app_nil_r. symmetry. apply (Efs _ [tk1]); [reflexivity|exact EE|destruct kd; [discriminate Nr|reflexivity|reflexivity]]. }
    destruct kd; cbn [is_roll] in *.
    - destruct Hkd1 as (li & Eli & Htop & Hmax). rewrite Eli in Hin. cbn [tl] in Hin. assert (lv ls =? 0 = true) as -> by (destruct (lv ls =? 0); [reflexivity|discriminate Hg]). cbn [negb].
      assert (Hind : indent s = top li) by (destruct li; cbn in Hin; injection Hin as Hin _; exact Hin). rewrite Hind, P5. replace (top li <? Z.of_N c)%Z with true by lia.
      rewrite (bmod _ _ _ (set_indents (indent s :: indents s) s2)) by reflexivity. replace (Z.of_N c <=? 2147483647)%Z with true by lia. rewrite (bok (ret tt) _ _ tt _ eq_refl).
      rewrite (bmod _ _ _ (set_indent (Z.of_N c) (set_indents (indent s :: indents s) s2))) by reflexivity. set (s3 := set_indent (Z.of_N c) (set_indents (indent s :: indents s) s2)).
      set (tk2 := Mk_token TBlockMappingStart (sk_mark k) (sk_mark k)). set (s4 := set_tokens (firstn j (tokens s) ++ [tk2; tk1] ++ skipn j (tokens s)) s3).
      assert (E4 : insert_token (sk_token k) tk2 s3 = (Ok tt, s4)).
      { unfold insert_token. change (tokens_parsed s3) with (tokens_parsed s). change (tokens s3) with (firstn j (tokens s) ++ tk1 :: skipn j (tokens s)). replace (sk_token k <? tokens_parsed s) with false by lia. cbv zeta. fold j.
        assert (Lf : length (firstn j (tokens s)) = j) by (rewrite firstn_length; lia).
        replace (Nat.leb j (length (firstn j (tokens s) ++ tk1 :: skipn j (tokens s)))) with true by (symmetry; apply Nat.leb_le; rewrite app_length, Lf; lia).
        rewrite firstn_app, skipn_app, Lf, Nat.sub_diag, firstn_firstn, Nat.min_id. cbn [firstn skipn]. rewrite app_nil_r. rewrite (skipn_all2 (firstn j (tokens s))) by (rewrite Lf; lia). reflexivity. }
      exists s4. split; [exact E4|]. split; [|split; [|split; [eapply Hx_ext; [exact Hh|reflexivity..]|constructor; reflexivity]]].
      + destruct R. constructor; auto; cbn [slots_to lsx lsl lli lpop lv].
        * unfold real. cbn [slots_to lsx lsl lli]. rewrite (not_live_roll _ Nlx), Hp, Eli. cbn [app map]. change (Z.of_N c :: indent s :: indents s = Z.of_N c :: map Z.of_N li ++ [(-1)%Z]). rewrite Hin. reflexivity.
        * rewrite Es in r_count. cbn [length] in *. exact r_count.
        * apply kinds_off, Nlx.
        * rewrite (not_live_filter _ Nlx). cbn. lia.
      + unfold E at 1. cbn [lsx slots_to lsl lpop]. rewrite Hp. change (simple_keys s4) with (sk_off k :: ks). rewrite (not_live_of _ Nlx). cbn [put length repeat]. rewrite app_nil_r. symmetry. apply (Efs _ [tk2; tk1]); [reflexivity|exact EE|reflexivity].
    - assert (lv ls =? 0 = true) as -> by (destruct (lv ls =? 0); [reflexivity|discriminate Hg]). cbn [negb]. cbn [kind_ok] in Hkd1.
      assert (Hind : indent s = top (lli ls)) by (destruct (lli ls); cbn in Hin; injection Hin as Hin _; exact Hin). rewrite Hind, P5, Hkd1. rewrite Z.ltb_irrefl.
      destruct (Rx2 eq_refl) as [A B]. exists s2. split; [reflexivity|]. split; [exact A|]. split; [exact B|]. split; [eapply Hx_ext; [exact Hh|reflexivity..]|constructor; reflexivity].
    - assert (lv ls =? 0 = false) as -> by (destruct (lv ls =? 0); [discriminate Hg|reflexivity]). cbn [negb].
      destruct (Rx2 eq_refl) as [A B]. exists s2. split; [reflexivity|]. split; [exact A|]. split; [exact B|]. split; [eapply Hx_ext; [exact Hh|reflexivity..]|constructor; reflexivity]. }
  destruct X as (s3 & E3 & R3 & E4 & H3 & K3).
  match goal with |- context [bind ?m _ s] => assert (E5 : m s = (Ok tt, set_simple_key_allowed false s3)) end.
  { rewrite (bok _ _ _ _ _ E1), (bmod _ _ _ s2) by reflexivity. rewrite (bok _ _ _ _ _ E3). reflexivity. }
  rewrite (bok _ _ _ _ _ E5).
  destruct (finish false Blank TValue 58 rest lsx ls2 p (set_simple_key_allowed false s3) [] ls s (R0_allow _ _ _ _ R3)) as (s' & F1 & F2 & F3 & F4); auto.
  - eapply Hx_ext; [exact H3|reflexivity..].
  - rewrite app_nil_r. exact E4.
  - destruct K3; constructor; assumption.
  - exists s'. auto.
Qed.
Lemma value_off_x r ls2 : Hx p (58 :: rest) s -> lsl ls = SOff :: r -> fresh (lsl ls) (simple_keys s) -> (lv ls = 0 -> lal ls = true -> simple_key_allowed s = true) -> (if lv ls =? 0 then lal ls && (top (lli ls) =? Z.of_N (lcol ls))%Z else true) = true ->
  walk [58] ls = Some ls2 -> done fetch_value ls (then_ (lv ls =? 0) Blank ls2) [TValue] p [58] rest s.
Proof.
  intros Hh Es Fr Ha Hg W. destruct (head_slot _ _ _ R) as (sl & r' & k & ks & Es' & Ek & K1 & K2). rewrite Es in Es'. injection Es' as <- <-.
  assert (Pk : sk_possible k = false) by (rewrite Es, Ek in Fr; inversion Fr as [|? ? ? ? F1 _]; subst; apply F1; reflexivity).
  unfold done, fetch_value. rewrite bgt, Ek, Pk, (r_level _ _ _ R).
  match goal with |- context [bind ?m _ s] => assert (E5 : m s = (Ok tt, set_simple_key_allowed (lv ls =? 0) s)) end.
  { destruct (lv ls =? 0) eqn:Ev.
    - apply andb_true_iff in Hg. destruct Hg as [G1 G2]. assert (Hv : lv ls = 0) by lia. rewrite (Ha Hv G1). cbn [negb].
      destruct (ind_top _ _ _ R Hp) as (l & _ & Et & _). rewrite (real_live _ (one_off _ _ Hv Es eq_refl)) in Et.
      assert (E1 : roll_indent (bcol s) None TBlockMappingStart (pos s) s = (Ok tt, s)).
      { unfold roll_indent. rewrite bgt, (r_level _ _ _ R), Ev. cbn [negb]. replace (indent s <? bcol s)%Z with false; [reflexivity|]. unfold bcol. rewrite Et, (Hx_pos _ _ _ _ Hh), (r_col _ _ _ R). lia. }
      rewrite (bok _ _ _ _ _ E1). unfold modify. rewrite (r_level _ _ _ R), Ev. reflexivity.
    - rewrite (bok (ret tt) _ _ tt _ eq_refl). unfold modify. rewrite (r_level _ _ _ R), Ev. reflexivity. }
  rewrite (bok _ _ _ _ _ E5).
  destruct (finish (lv ls =? 0) Blank TValue 58 rest ls ls2 p (set_simple_key_allowed (lv ls =? 0) s) [] ls s (R0_allow _ _ _ _ R)) as (s' & F1 & F2 & F3 & F4); auto.
  - eapply Hx_ext; [exact Hh|reflexivity..].
  - rewrite app_nil_r. reflexivity.
  - constructor; reflexivity.
  - exists s'. auto.
Qed.
(** ** Tokens made by a scan_ function *)
Lemma scanned_hx (f : M sst token) body r s1 t s' : Hx p (body ++ r) s1 -> ideal s' -> buffer s' = r -> LexBase.pc f (LexNames.scanned [] T p (body ++ r) s1) s1 -> f s1 = (Ok t, s') -> Hx (p ++ body) r s'.
Proof.
  intros Hh Hi Hb P Ef. unfold LexBase.pc in P. rewrite Ef in P. destruct P as (w & g & r' & Er & _ & _ & _ & _ & _ & H1 & _).
  pose proof (Hx_buf T _ _ _ H1 Hi) as Eb. rewrite Hb in Eb. subst r'.
  assert (Ep : p ++ w ++ g = p ++ body); [|rewrite <- Ep; exact H1]. apply (same_prefix _ _ r). refine (eq_trans (eq_sym (LexBase.h_T _ _ _ _ _ _ H1)) _). rewrite <- app_assoc. exact (LexBase.h_T _ _ _ _ _ _ Hh).
Qed.
Lemma pushed ls1 ls2 body r s1 s2 t a n tk0 : R0 ls1 p s1 -> lpop ls1 = [] -> walk body ls1 = Some ls2 -> (has_break body = true -> snd (mk p) = true -> hd 0 body <> 10) -> Hx (p ++ body) r s2 -> 
  (exists al m, s2 = set_pos m (set_buffer r (set_simple_key_allowed al s1))) -> al_ok (then_ a n ls2) (simple_key_allowed s2) -> E ls1 s1 = E ls s ++ tk0 -> kept s s1 ->
  exists s', modify (fun s => set_tokens (tokens s ++ [t]) s) s2 = (Ok tt, s') /\ Rx (then_ a n ls2) (p ++ body) r s' /\ E (then_ a n ls2) s' = E ls s ++ tk0 ++ [t_data t] /\ kept s s'.
Proof.
  intros R1 Hp1 W Hc H2 (al & m & E2) Ha E1 K1. eexists. split; [reflexivity|]. destruct (walk_at _ _ _ _ _ R1 W Hc) as [R2 E3].
  destruct (R0_same ls2 ls2 (p ++ body) s1 s2 R2) as [R3 E4]; try (rewrite E2; reflexivity); auto; [rewrite E2; exact (r_ideal _ _ _ R1)|].
  destruct (push_at ls2 (p ++ body) s2 [t] R3) as [R4 E5]; [apply walk_is in W; destruct W as (_ & _ & _ & -> & _); exact Hp1|].
  split; [constructor; [eapply Hx_ext; [exact H2|reflexivity..]|apply R0_then, R4|exact Ha]|]. split.
  - change (E (then_ a n ls2) ?x) with (E ls2 x). rewrite E5, E4, E3, E1, <- app_assoc. reflexivity.
  - eapply kept_trans; [exact K1|]. rewrite E2. constructor; reflexivity.
Qed.
Lemma scan_x (f : M sst token) body d n ls2 tk ls3 : Hx p (body ++ rest) s -> simple_key_allowed s = lal ls -> save ls = Some (ls2, tk) -> walk body ls2 = Some ls3 -> (match n with Gapped _ _ => False | _ => True end) ->
  (forall s, ideal s -> flow_level s = lv ls -> scanned f body rest d s (position p)) ->
  (forall s, Hx p (body ++ rest) s -> ideal s -> LexBase.pc f (LexNames.scanned [] T p (body ++ rest) s) s) -> (has_break body = true -> snd (mk p) = true -> hd 0 body <> 10) ->
  done (save_simple_key ;; modify (set_simple_key_allowed false) ;; push_scanned f) ls (then_ false n ls3) (tk ++ [d]) p body rest s.
Proof.
  intros Hh Ha Sv W Hn Sc Pc Hcr. destruct (save_at _ _ _ _ _ R Hp Ha (Hx_pos _ _ _ _ Hh) Sv) as (ks & E1 & R1 & E2). destruct (save_pop _ _ _ Sv) as (V1 & V2 & _).
  unfold done. rewrite (bok _ _ _ _ _ E1). set (s1 := set_simple_key_allowed false (set_simple_keys ks s)). rewrite (bmod _ _ _ s1) by reflexivity.
  assert (Hh1 : Hx p (body ++ rest) s1) by (eapply Hx_ext; [exact Hh|reflexivity..]).
  assert (R2 : R0 ls2 p s1) by (apply R0_allow, R1). pose proof (r_ideal _ _ _ R2) as Hi.
  destruct (Sc s1 Hi) as (a & b & m2 & E3 & _); [change (flow_level s1) with (flow_level s); apply (r_level _ _ _ R)|]. rewrite <- (Hx_at _ _ _ _ Hh1 Hi) in E3.
  pose proof (scanned_hx f body rest s1 _ (at_ s1 rest m2) Hh1 Hi eq_refl (Pc s1 Hh1 Hi) E3) as H3.
  unfold push_scanned. rewrite (bok _ _ _ _ _ E3).
  destruct (pushed ls2 ls3 body rest s1 (at_ s1 rest m2) (Mk_token d a b) false n tk R2) as (s' & F); auto.
  - congruence.
  - exists false, m2. reflexivity.
  - unfold al_ok. cbn [then_ ln lal lv]. destruct n; reflexivity || contradiction.
  - constructor; reflexivity.
  - exists s'. exact F.
Qed.
End tok.

(** ** Lines outside of the block collections, and the end *)
Definition with_pops (po : list N) (ls : lstate) : lstate := LS (lv ls) (lcol ls) (lli ls) po (lal ls) (lsl ls) (lsoon ls) (ln ls).
Lemma unroll_x ls p s c : R0 ls p s -> lv ls = 0 -> lli ls = [] -> live (lsl ls) = false -> (-1 <= c)%Z ->
  exists po i st l, unroll_indent c s = (Ok tt, set_tokens (tokens s ++ l) (set_indents st (set_indent i s))) /\ R0 (with_pops po ls) p (set_tokens (tokens s ++ l) (set_indents st (set_indent i s))) /\
    E (with_pops po ls) (set_tokens (tokens s ++ l) (set_indents st (set_indent i s))) = E ls s /\ (c = (-1)%Z -> po = []).
Proof.
  intros R Hv Hl Nl Hc. unfold unroll_indent. rewrite (r_level _ _ _ R), Hv. cbn [N.eqb negb].
  pose proof (r_ind _ _ _ R) as Hi. rewrite (real_live _ Nl), Hl, app_nil_r in Hi.
  assert (X : exists n i1 st1, (n <= length (lpop ls))%nat /\ unroll_go c (indent s) (indents s) (pos s) (tokens s) = (None, i1, st1, tokens s ++ repeat (Mk_token TBlockEnd (pos s) (pos s)) n) /\ i1 :: st1 = map Z.of_N (skipn n (lpop ls)) ++ [(-1)%Z] /\ (c = (-1)%Z -> n = length (lpop ls))).
  { destruct (Z.eqb_spec c (-1)) as [-> |Nc].
    - exists (length (lpop ls)), (-1)%Z, []. split; [lia|]. split; [|split; [rewrite skipn_all; reflexivity|auto]]. apply (unroll_all (-1) (pos s) (lpop ls) (indent s) (indents s) (-1) [] (tokens s) Hi); [|lia].
      apply Forall_forall. intros x _. lia.
    - destruct (unroll_some c (pos s) (lpop ls) (indent s) (indents s) (-1)%Z [] (tokens s) Hi Hc) as (n & i1 & st1 & Ln & E1 & E2). exists n, i1, st1. repeat split; auto. intros D. contradiction. }
  destruct X as (n & i1 & st1 & Ln & E1 & E2 & E3). rewrite E1. exists (skipn n (lpop ls)), i1, st1, (repeat (Mk_token TBlockEnd (pos s) (pos s)) n). split; [reflexivity|]. split; [|split; [|intros D; rewrite (E3 D); apply skipn_all]].
  - destruct R. constructor; auto; cbn [with_pops lsl lli lpop lv].
    + change (i1 :: st1 = map Z.of_N (skipn n (lpop ls) ++ real ls) ++ [(-1)%Z]). rewrite (real_live _ Nl), Hl, app_nil_r. exact E2.
    + cbn [simple_keys tokens_parsed set_tokens set_indents set_indent]. eapply Forall2_imp; [|exact r_keys]. intros a b. apply key_grow. eapply (next_grow s); reflexivity.
    + rewrite Nl. discriminate.
  - unfold E. cbn [with_pops lsl lpop simple_keys tokens_parsed tokens set_tokens set_indents set_indent]. rewrite !(not_live_of _ Nl). cbn [put]. rewrite map_app, map_be, <- app_assoc, <- repeat_app. f_equal. f_equal. rewrite skipn_length. lia.
Qed.
Lemma outer_is ls ls1 : outer_line ls = Some ls1 -> lv ls = 0 /\ lcol ls = 0 /\ lli ls = [] /\ exists lsu, unsave ls = Some lsu /\ ls1 = LS 0 0 [] [] false (lsl lsu) false (ln lsu).
Proof.
  unfold outer_line. destruct ((lv ls =? 0) && (lcol ls =? 0) && is_empty (lli ls)) eqn:G; [|discriminate]. destruct (unsave ls) as [lsu|] eqn:U; [|discriminate]. intros [= <-].
  apply andb_true_iff in G. destruct G as [G G3]. split; [lia|]. split; [lia|]. split; [destruct (lli ls); [reflexivity|discriminate]|]. exists lsu. auto.
Qed.
Lemma off_live ls p s : R0 ls p s -> lv ls = 0 -> forall lsu, unsave ls = Some lsu -> live (lsl ls) = false.
Proof. intros R Hv lsu U. destruct (unsave_is _ _ U) as (r & _ & sl & Es & Hl & _). exact (one_off p ls s R sl r Hv Es Hl). Qed.
Lemma first_unroll ls ls1 p r s : R0 ls p s -> Hx p r s -> outer_line ls = Some ls1 ->
  exists s1 po, unroll_indent (bcol s) s = (Ok tt, s1) /\ R0 (with_pops po ls) p s1 /\ E (with_pops po ls) s1 = E ls s /\ Hx p r s1 /\ kept s s1.
Proof.
  intros R Hh O. destruct (outer_is _ _ O) as (Hv & Hc & Hl & lsu & U & _). destruct (unroll_x ls p s (bcol s) R Hv Hl (off_live _ _ _ R Hv _ U)) as (po & i & st & l & E1 & R1 & E2 & _); [unfold bcol; lia|].
  eexists _, po. split; [exact E1|]. split; [exact R1|]. split; [exact E2|]. split; [eapply Hx_ext; [exact Hh|reflexivity..]|constructor; reflexivity].
Qed.
Lemma outer_x ls ls1 po p r s : R0 (with_pops po ls) p s -> Hx p r s -> outer_line ls = Some ls1 ->
  exists s1, (forall A (k : unit -> M sst A), (unroll_indent (-1)%Z ;; remove_simple_key ;; bind (modify (set_simple_key_allowed false)) k) s = k tt s1) /\
    R0 ls1 p s1 /\ E ls1 s1 = E (with_pops po ls) s /\ Hx p r s1 /\ kept s s1 /\ simple_key_allowed s1 = false.
Proof.
  intros R Hh O. destruct (outer_is _ _ O) as (Hv & Hc & Hl & lsu & U & ->).
  assert (U1 : unsave (with_pops po ls) = Some (with_pops po lsu)).
  { destruct (unsave_is _ _ U) as (x & -> & sl & Es & Hs & So). unfold unsave. cbn [with_pops lsl lsoon]. rewrite Es, Hs, So. reflexivity. }
  destruct (unroll_x _ p s (-1)%Z R Hv Hl (off_live _ _ _ R Hv _ U1)) as (po2 & i & st & l & E1 & R1 & E2 & Epo); [lia|]. rewrite (Epo eq_refl) in *. clear Epo po2.
  set (s1 := set_tokens (tokens s ++ l) (set_indents st (set_indent i s))) in *.
  assert (U2 : unsave (with_pops [] (with_pops po ls)) = Some (with_pops [] lsu)).
  { destruct (unsave_is _ _ U) as (x & -> & sl & Es & Hs & So). unfold unsave. cbn [with_pops lsl lsoon]. rewrite Es, Hs, So. reflexivity. }
  destruct (unsave_at _ _ _ _ R1 U2) as (k & ks & Ek & E3 & R2 & E4). exists (set_simple_key_allowed false (set_simple_keys (sk_off k :: ks) s1)).
  split; [intros A q; rewrite (bok _ _ _ _ _ E1), (bok _ _ _ _ _ E3); reflexivity|].
  destruct (R0_same (with_pops [] lsu) (LS 0 0 [] [] false (lsl lsu) false (ln lsu)) p (set_simple_keys (sk_off k :: ks) s1) (set_simple_key_allowed false (set_simple_keys (sk_off k :: ks) s1)) R2) as [R3 E5]; try reflexivity.
  - destruct (unsave_is _ _ U) as (x & -> & _). symmetry. exact Hv.
  - destruct (unsave_is _ _ U) as (x & -> & _). symmetry. exact Hc.
  - destruct (unsave_is _ _ U) as (x & -> & _). symmetry. exact Hl.
  - exact (r_ideal _ _ _ R2).
  - split; [exact R3|]. split; [rewrite E5, E4, E2; reflexivity|]. split; [eapply Hx_ext; [exact Hh|reflexivity..]|]. split; [constructor; reflexivity|reflexivity].
Qed.
Lemma take1 p c r s : Hx p (c :: r) s -> ideal s -> breaks_line c = false -> exists s1, skip_char s = (Ok tt, s1) /\ Hx (p ++ [c]) r s1 /\ s1 = set_pos (pos s1) (set_buffer r s).
Proof.
  intros Hh Hi Hc. pose proof (Hx_buf _ _ _ _ Hh Hi) as Eb. pose proof (LexBase.take _ _ _ _ _ _ _ _ Hh Eb Hc) as H1. eexists. split; [unfold skip_char; rewrite Eb; reflexivity|]. split; [exact H1|reflexivity].
Qed.
Lemma marker_x d c r ls ls1 ls2 po p s : R0 (with_pops po ls) p s -> Hx p ([c; c; c] ++ r) s -> breaks_line c = false -> outer_line ls = Some ls1 -> walk [c; c; c] ls1 = Some ls2 ->
  exists s', fetch_document_indicator d s = (Ok tt, s') /\ Rx (then_ false Blank ls2) (p ++ [c; c; c]) r s' /\ E (then_ false Blank ls2) s' = E (with_pops po ls) s ++ [d] /\ kept s s'.
Proof.
  intros R Hh Hc O W. destruct (outer_x _ _ _ _ _ _ R Hh O) as (s1 & E1 & R1 & E2 & H1 & K1 & A1). unfold fetch_document_indicator. rewrite E1.
  pose proof (r_ideal _ _ _ R1) as Hi. cbn [app] in H1.
  destruct (take1 _ _ _ _ H1 Hi Hc) as (s2 & F2 & H2 & X2). assert (I2 : ideal s2) by (rewrite X2; exact Hi).
  destruct (take1 _ _ _ _ H2 I2 Hc) as (s3 & F3 & H3 & X3). assert (I3 : ideal s3) by (rewrite X3; exact I2).
  destruct (take1 _ _ _ _ H3 I3 Hc) as (s4 & F4 & H4 & X4).
  assert (E4 : s4 = set_pos (pos s4) (set_buffer r (set_simple_key_allowed false s1))).
  { rewrite X4 at 1. rewrite X3. rewrite X2. rewrite <- A1. destruct s1; reflexivity. }
  assert (H4' : Hx (p ++ [c; c; c]) r s4) by (rewrite <- !app_assoc in H4; exact H4).
  destruct (pushed p (with_pops po ls) s ls1 ls2 [c; c; c] r s1 s4 (Mk_token d (pos s1) (pos s4)) false Blank [] R1) as (s' & G1 & G2 & G3 & G4); auto.
  - destruct (outer_is _ _ O) as (_ & _ & _ & lsu & _ & ->). reflexivity.
  - unfold has_break. cbn [existsb]. rewrite Hc. discriminate.
  - exists false, (pos s4). exact E4.
  - rewrite E4. reflexivity.
  - rewrite app_nil_r. exact E2.
  - exists s'. split; [|split; [exact G2|split; [exact G3|exact G4]]]. unfold fetch_indicator. change (bind (gets pos) ?k s1) with (k (pos s1) s1). cbv beta.
    assert (K : skip_chars 3 s1 = (Ok tt, s4)) by (cbn [skip_chars]; rewrite (bok _ _ _ _ _ F2), (bok _ _ _ _ _ F3), (bok _ _ _ _ _ F4); reflexivity).
    rewrite (bok _ _ _ _ _ K). exact G1.
Qed.
Lemma directive_x d body r ls ls1 ls2 po p s : R0 (with_pops po ls) p s -> Hx p (body ++ r) s -> outer_line ls = Some ls1 -> walk body ls1 = Some ls2 -> hd 0 body = 37 ->
  (forall s, ideal s -> scanned0 scan_directive body r d s (position p)) ->
  exists s', fetch_directive s = (Ok tt, s') /\ Rx (then_ false Free ls2) (p ++ body) r s' /\ E (then_ false Free ls2) s' = E (with_pops po ls) s ++ [d] /\ kept s s'.
Proof.
  intros R Hh O W Hd Sc. destruct (outer_x _ _ _ _ _ _ R Hh O) as (s1 & E1 & R1 & E2 & H1 & K1 & A1). unfold fetch_directive. rewrite E1.
  pose proof (r_ideal _ _ _ R1) as Hi. destruct (Sc s1 Hi) as (a & b & m2 & E3 & _). rewrite <- (Hx_at _ _ _ _ H1 Hi) in E3.
  assert (Hcol : m_col (position p) = 0) by (rewrite (r_col _ _ _ R); destruct (outer_is _ _ O) as (_ & C & _); exact C).
  assert (Hb : bget 0 s1 = Some 37) by (unfold bget; rewrite (Hx_buf _ _ _ _ H1 Hi); destruct body as [|b0 body0]; [discriminate Hd|cbn [hd] in Hd; rewrite Hd; reflexivity]).
  pose proof (scanned_hx p scan_directive body r s1 _ (at_ s1 r m2) H1 Hi eq_refl (LexNames.L_directive [] T 0 p (body ++ r) s1 H1 Hcol Hb) E3) as H3. rewrite (bok _ _ _ _ _ E3).
  destruct (pushed p (with_pops po ls) s ls1 ls2 body r s1 (at_ s1 r m2) (Mk_token d a b) false Free [] R1) as (s' & G); auto.
  - destruct (outer_is _ _ O) as (_ & _ & _ & lsu & _ & ->). reflexivity.
  - intros _ _. rewrite Hd. discriminate.
  - exists false, m2. rewrite <- A1. destruct s1; reflexivity.
  - rewrite app_nil_r. exact E2.
  - exists s'. exact G.
Qed.
Notation off ks := (Forall (fun k => sk_possible k = false) ks).
Definition final (ls : lstate) : Prop := lv ls = 0 /\ lli ls = [] /\ live (lsl ls) = false /\ lsoon ls = false /\ match ln ls with Lined _ b => b = true | _ => True end.
Lemma end_x ls p s : R0 ls p s -> Hx p [] s -> final ls ->
  exists s1 s', unroll_indent (bcol s) s = (Ok tt, s1) /\ Hx p [] s1 /\ ideal s1 /\ fetch_stream_end s1 = (Ok tt, s') /\ off (simple_keys s') /\ map t_data (tokens s') = E ls s ++ [TStreamEnd] /\ kept s s' /\ ideal s'.
Proof.
  intros R Hh (Hv & Hl & Nl & So & _). destruct (unroll_x ls p s (bcol s) R Hv Hl Nl) as (po & i & st & l & E1 & R1 & E2 & _); [unfold bcol; lia|].
  set (s1 := set_tokens (tokens s ++ l) (set_indents st (set_indent i s))) in *. exists s1.
  set (s2 := if m_col (pos s1) =? 0 then s1 else set_pos (Mk_mark (m_index (pos s1)) (m_line (pos s1) + 1) 0) s1).
  assert (R2 : R0 (with_pops po ls) p s2 /\ E (with_pops po ls) s2 = E (with_pops po ls) s1) by (subst s2; destruct (m_col (pos s1) =? 0); [auto|]; apply (R0_same _ _ _ _ _ R1); auto; exact (r_ideal _ _ _ R1)).
  destruct R2 as [R2 E3].
  destruct (unroll_x _ p s2 (-1)%Z R2 Hv Hl Nl) as (po2 & i2 & st2 & l2 & E4 & R3 & E5 & Epo); [lia|]. rewrite (Epo eq_refl) in *. clear Epo po2.
  set (s3 := set_tokens (tokens s2 ++ l2) (set_indents st2 (set_indent i2 s2))) in *.
  destruct (one_slot _ _ _ R3 Hv) as (sl & k & Es & Ek). cbn [with_pops lsl] in Es.
  assert (Nsl : is_live sl = false) by (rewrite Es in Nl; cbn in Nl; rewrite orb_false_r in Nl; exact Nl).
  pose proof (removes _ _ _ _ _ _ _ R3 Es Ek Nsl) as E6.
  eexists. split; [exact E1|]. split; [eapply Hx_ext; [exact Hh|reflexivity..]|]. split; [exact (r_ideal _ _ _ R1)|].
  assert (K12 : kept s s2) by (subst s2; destruct (m_col (pos s1) =? 0); constructor; reflexivity).
  split; [|split; [|split; [|split]]].
  - unfold fetch_stream_end. rewrite (bmod _ _ _ s2) by reflexivity. rewrite (bok _ _ _ _ _ E4), (bok _ _ _ _ _ E6), (bmod _ _ _ (set_simple_key_allowed false (set_simple_keys (sk_off k :: []) s3))) by reflexivity. reflexivity.
  - constructor; [reflexivity|constructor].
  - cbn [tokens set_tokens]. change (tokens (set_simple_key_allowed false (set_simple_keys [sk_off k] s3))) with (tokens s3). rewrite map_app. cbn [map t_data]. f_equal. rewrite <- E2, <- E3, <- E5. unfold E. cbn [with_pops lsl lpop]. rewrite (not_live_of _ Nl). cbn [put length repeat]. rewrite app_nil_r. reflexivity.
  - destruct K12 as [K1 K2 K3]. constructor; assumption.
  - exact (r_ideal _ _ _ R3).
Qed.

(** ** What stands behind a token *)
Definition sep_behind (colon : bool) (t : str) : Prop := name_behind t \/ colon = true /\ nth_error t 0 = Some 58.
Lemma pre_lstep i ls ls1 tk : is_pre i = true -> itext i = [] -> lstep ls i = Some (ls1, tk) -> i = IPop \/ i = IMark.
Proof. destruct i; try discriminate; auto. intros _ E. cbn [LayItems.itext] in E. destruct Hlf as [-> |[-> | ->]]; discriminate E. Qed.
Lemma pop_ln i ls ls1 tk : i = IPop \/ i = IMark -> lstep ls i = Some (ls1, tk) -> ln ls1 = ln ls /\ lv ls1 = lv ls /\ lcol ls1 = lcol ls /\ lpop ls1 ++ lli ls1 = lpop ls ++ lli ls /\ lal ls1 = lal ls /\ lsl ls1 = lsl ls.
Proof.
  intros [-> | ->]; cbn [LayItems.lstep]; destruct (guard _) as [[]|]; try discriminate; cbn [option_bind].
  - destruct (lli ls) eqn:El; [discriminate|]. intros [= <- _]. cbn [ln lv lcol lpop lli]. rewrite <- app_assoc. auto 10.
  - intros [= <- _]. auto 10.
Qed.
Lemma lf_blank t : is_blankz (nth_error (lf ++ t) 0) = true. Proof. apply (lf_breakz lf t Hlf). Qed.
Lemma blank_text l : forall s s' tk, lrun s l = Some (s', tk) -> ln s = Blank -> blank_behind (texts l).
Proof.
  induction l as [|i l IH]; intros s s' tk H Hn; [reflexivity|]. apply lrun_cons in H. destruct H as (s1 & t1 & t2 & E1 & E2 & _). rewrite texts_cons.
  destruct i; try (cbn [LayItems.lstep] in E1; unfold opens_gate in E1; rewrite Hn in E1; cbn in E1; discriminate E1).
  - reflexivity.
  - apply lf_blank.
  - destruct (pop_ln IPop _ _ _ (or_introl eq_refl) E1) as (N & _). apply (IH _ _ _ E2). congruence.
  - destruct (pop_ln IMark _ _ _ (or_intror eq_refl) E1) as (N & _). apply (IH _ _ _ E2). congruence.
Qed.
Lemma sep_text l c : forall s s' tk, lrun s l = Some (s', tk) -> ln s = Sep c -> sep_behind c (texts l).
Proof.
  induction l as [|i l IH]; intros s s' tk H Hn; [left; left; reflexivity|]. apply lrun_cons in H. destruct H as (s1 & t1 & t2 & E1 & E2 & _). rewrite texts_cons.
  destruct i; try (cbn [LayItems.lstep] in E1; unfold opens_gate in E1; rewrite Hn in E1; cbn in E1; discriminate E1).
  - left. left. reflexivity.
  - left. left. apply lf_blank.
  - destruct (pop_ln IPop _ _ _ (or_introl eq_refl) E1) as (N & _). apply (IH _ _ _ E2). congruence.
  - destruct (pop_ln IMark _ _ _ (or_intror eq_refl) E1) as (N & _). apply (IH _ _ _ E2). congruence.
  - left. right. destruct mp; cbn; auto.
  - left. right. cbn. auto.
  - right. split; [|reflexivity]. cbn [LayItems.lstep] in E1. unfold opens_gate in E1. rewrite Hn in E1. destruct c; [reflexivity|discriminate E1].
Qed.

(** ** Plain scalars *)
Lemma nth1 (c : char) t : nth_error (c :: t) 1 = hd_error t. Proof. destruct t; reflexivity. Qed.
Lemma plain_first u flow v ats : Spec_Styles.plain_text u flow v -> v <> [] -> pw flow false lf ats -> hd_word ats -> den g0 ats = v -> (is_blankz (hd_error (tl v)) = false -> hd_word (tl ats)) ->
  exists ch w, flat ats = ch :: w /\ is_blankz (Some ch) = false /\ ch <> 65279 /\ ~ In ch [35; 44; 91; 93; 123; 125; 38; 42; 33; 124; 62; 39; 34; 37; 64; 96] /\
    (ch = 45 \/ ch = 63 \/ ch = 58 -> forall X, is_blankz (nth_error (flat ats ++ X) 1) = false) /\ (ch = 63 \/ ch = 58 -> flow = false).
Proof.
  intros Hpt Hv Hp Hh Hd Htl. destruct v as [|ch r]; [congruence|]. destruct (EmitPlain.pt_first u flow (ch :: r) Hpt ch r eq_refl) as (F1 & (F2 & F3) & F4 & F5 & F6).
  pose proof Hpt as (Hwr & _ & Hfirst & _). destruct (Hfirst ch r eq_refl) as [_ Hbad]. unfold Spec_Styles.bad_first in Hbad.
  destruct ats as [|a l]; [contradiction|]. cbn in Hh. destruct a as [c0| | | |]; try discriminate Hh; cbn [pw] in Hp; try contradiction.
  cbn [den word aval flush_gap g0 g_ld g_ws app] in Hd. injection Hd as -> Hd. cbn [tl] in Htl. exists ch, (flat l). split; [reflexivity|]. split; [exact F2|]. split; [|split; [|split]].
  - pose proof (Forall_inv Hwr) as [W _]. unfold Spec_Styles.printable in W. clear -W. lia.
  - intros Hi. apply Hbad. left. exact Hi.
  - intros Hc X. rewrite flat_cons. cbn [atext app]. rewrite nth1.
    assert (Hw : hd_word l).
    { apply Htl. destruct (is_blankz (hd_error r)) eqn:Eb; [|reflexivity]. exfalso. apply Hbad.
      assert (Wb : Spec_Styles.white_behind r) by (destruct r as [|x r]; [exact Logic.I|apply white_blankz; exact Eb]).
      destruct Hc as [-> |[-> | ->]]; [right; right; auto|right; left; auto|right; left; auto]. }
    destruct l as [|a l]; [contradiction|]. cbn in Hw. destruct Hp as (_ & _ & _ & Hp). destruct a as [c1| | | |]; try discriminate Hw; cbn [pw] in Hp; try contradiction. apply Hp.
  - intros Hc. destruct flow; [|reflexivity]. exfalso. apply Hbad. right. left. auto.
Qed.
Lemma plain_doc u flow v ats ind q after s m : Spec_Styles.plain_text u flow v -> pw flow false lf ats -> den g0 ats = v -> Spec_RoundTrip.plain_follow flow ind q after ->
  at_document_indicator (at_ s (flat ats ++ q ++ after) m) = false.
Proof.
  intros Hpt Hp Hd Hfo. destruct (at_document_indicator _) eqn:Ed; [|reflexivity]. exfalso. unfold at_document_indicator in Ed. apply andb_true_iff in Ed. destruct Ed as [Ed _]. apply andb_true_iff in Ed. destruct Ed as [_ Ed].
  destruct Hpt as (_ & _ & _ & _ & _ & Hnm). apply Hnm. rewrite !bget_at in Ed. apply orb_true_iff in Ed.
  assert (K : forall x, x = 45 \/ x = 46 -> chk x (nth_error (flat ats ++ q ++ after) 0) && chk x (nth_error (flat ats ++ q ++ after) 1) && chk x (nth_error (flat ats ++ q ++ after) 2) = true -> exists b, v = [x; x; x] ++ b).
  { intros x Hx E. apply Prop_RoundTrip.chk_nth3 in E. destruct E as (b & E). destruct (Prop_RoundTrip.pw_marker flow lf ats (q ++ after) x Hlf Hx (Prop_RoundTrip.follow_hd _ _ _ _ _ Hx Hfo) 3%nat false b Hp E) as (r & ->).
    exists (den g0 r). rewrite <- Hd. reflexivity. }
  destruct Ed as [Ed|Ed]; apply K in Ed; auto; destruct Ed as (b & ->); exists b; auto.
Qed.
Lemma pw_last flow l : forall prev, pw flow prev lf l -> l <> [] -> exists w c, flat l = w ++ [c] /\ is_blankz (Some c) = false.
Proof.
  induction l as [|a l IH]; intros prev Hp Hn; [congruence|]. destruct l as [|b l].
  - destruct a as [ch| | | |t c]; cbn [pw] in Hp; try contradiction; [|discriminate Hp|destruct Hp; discriminate]. exists [], ch. split; [reflexivity|apply Hp].
  - assert (X : exists prev', pw flow prev' lf (b :: l)) by (destruct a; cbn [pw] in Hp; try contradiction; eexists; apply Hp). destruct X as (prev' & X). destruct (IH _ X) as (w & c & E & Hc); [discriminate|].
    exists (atext a ++ w), c. rewrite flat_cons, E, app_assoc. auto.
Qed.
(** What a plain scalar at the beginning of the text is taken for. *)
Lemma plain_enter u flow v ats (s : sst) q after m : Spec_Styles.plain_text u flow v -> v <> [] -> pw flow false lf ats -> hd_word ats -> den g0 ats = v -> (is_blankz (hd_error (tl v)) = false -> hd_word (tl ats)) ->
  negb (flow_level s =? 0) = flow -> Spec_RoundTrip.plain_follow flow (indent s + 1) q after ->
  let tx := flat ats ++ q ++ after in
  plain_start (at_ s tx m) = true /\ LexPlain.go (at_ s tx m) /\ (chk cMINUS (nth_error tx 0) && is_blankz (nth_error tx 1)) = false /\ exists c r, tx = c :: r /\
    fetch_rest (at_ s tx m) = fetch_plain_scalar (at_ s tx m).
Proof.
  intros Hpt Hv Hp Hh Hd Htl Hfl Hfo tx. destruct (plain_first u flow v ats Hpt Hv Hp Hh Hd Htl) as (ch & w & Ef & F1 & F2 & F3 & F4 & F5).
  specialize (fun H => F4 H (q ++ after)). fold tx in F4. assert (E0 : tx = ch :: w ++ q ++ after) by (subst tx; rewrite Ef; reflexivity).
  pose proof (plain_doc u flow v ats _ q after s m Hpt Hp Hd Hfo) as Hdi. fold tx in Hdi.
  assert (Eo : nth_error tx 0 = Some ch) by (rewrite E0; reflexivity). clear E0 Ef.
  assert (Q63 : ch = 63 -> is_blankz (nth_error tx 1) = false) by auto. assert (Q58 : ch = 58 -> is_blankz (nth_error tx 1) = false) by auto. assert (Q45 : ch = 45 -> is_blankz (nth_error tx 1) = false) by auto.
  assert (G63 : ch = 63 -> flow_level s =? 0 = true) by (intros D; rewrite F5 in Hfl by auto; destruct (flow_level s =? 0); [reflexivity|discriminate]).
  assert (G58 : ch = 58 -> flow_level s =? 0 = true) by (intros D; rewrite F5 in Hfl by auto; destruct (flow_level s =? 0); [reflexivity|discriminate]).
  assert (Hps : plain_start (at_ s tx m) = true).
  { unfold plain_start. rewrite !bget_at, Eo. change (flow_level (at_ s tx m)) with (flow_level s).
    destruct (N.eqb_spec ch 45) as [-> |E45]; [|destruct (N.eqb_spec ch 63) as [-> |E63]; [|destruct (N.eqb_spec ch 58) as [-> |E58]]].
    - specialize (Q45 eq_refl). unfold is_blankz in Q45. apply orb_false_iff in Q45. rewrite (proj1 Q45). reflexivity.
    - rewrite (Q63 eq_refl), (G63 eq_refl). reflexivity.
    - rewrite (Q58 eq_refl), (G58 eq_refl). reflexivity.
    - apply orb_true_iff. left. apply orb_true_iff. left. rewrite F1. cbn [chk]. cbn [In] in F3. clear -F3 E45 E63 E58. lia. }
  split; [exact Hps|]. split; [|split].
  - destruct (plain_start_go (at_ s tx m) Hps) as (_ & A & B).
    + change (flow_level (at_ s tx m)) with (flow_level s). intros Hl. rewrite !bget_at, Eo. cbn [chk]. split; [destruct (N.eqb_spec ch 63) as [D|D]; [specialize (G63 D); lia|reflexivity]|destruct (N.eqb_spec ch 58) as [D|D]; [specialize (G58 D); lia|reflexivity]].
    + split; [exact Hdi|]. split; [exact A|exact B].
  - rewrite Eo. cbn [chk]. destruct (N.eqb_spec ch 45) as [D|D]; [rewrite (Q45 D); reflexivity|reflexivity].
  - destruct tx as [|c r] eqn:Et; [discriminate Eo|]. exists c, r. split; [reflexivity|]. rewrite <- Et in *. rewrite CanonItems.dispatch. cbv zeta. rewrite Hps, Eo. unfold at_document_indicator in Hdi. rewrite !bget_at, Eo in Hdi. change (pos (at_ s tx m)) with m in Hdi.
    cbn [is_z chk]. cbn [chk] in Hdi. cbn [In] in F3.
    assert (M1 : (m_col m =? 0) && (ch =? 45) && chk 45 (nth_error tx 1) && chk 45 (nth_error tx 2) && is_blankz (nth_error tx 3) = false).
    { clear -Hdi. destruct (m_col m =? 0), (ch =? 45), (chk 45 (nth_error tx 1)), (chk 45 (nth_error tx 2)), (is_blankz (nth_error tx 3)); try reflexivity. cbn in Hdi. discriminate Hdi. }
    assert (M2 : (m_col m =? 0) && (ch =? 46) && chk 46 (nth_error tx 1) && chk 46 (nth_error tx 2) && is_blankz (nth_error tx 3) = false).
    { clear -Hdi. destruct (m_col m =? 0), (ch =? 46), (chk 46 (nth_error tx 1)), (chk 46 (nth_error tx 2)), (is_blankz (nth_error tx 3)); try reflexivity. cbn in Hdi. rewrite orb_true_r in Hdi. discriminate Hdi. }
    rewrite M1, M2. assert (X1 : (ch =? 45) && is_blankz (nth_error tx 1) = false) by (destruct (N.eqb_spec ch 45) as [D|D]; [rewrite (Q45 D); reflexivity|reflexivity]).
    assert (X2 : (ch =? 63) && (negb (flow_level s =? 0) || is_blankz (nth_error tx 1)) = false) by (destruct (N.eqb_spec ch 63) as [D|D]; [rewrite (Q63 D), (G63 D); reflexivity|reflexivity]).
    assert (X3 : (ch =? 58) && (negb (flow_level s =? 0) || is_blankz (nth_error tx 1)) = false) by (destruct (N.eqb_spec ch 58) as [D|D]; [rewrite (Q58 D), (G58 D); reflexivity|reflexivity]).
    rewrite X1, X2, X3. clear -F3. replace (ch =? 37) with false by lia. replace (ch =? 91) with false by lia. replace (ch =? 123) with false by lia. replace (ch =? 93) with false by lia. replace (ch =? 125) with false by lia. replace (ch =? 44) with false by lia.
    replace (ch =? 42) with false by lia. replace (ch =? 38) with false by lia. replace (ch =? 33) with false by lia. replace (ch =? 124) with false by lia. replace (ch =? 62) with false by lia. replace (ch =? 39) with false by lia. replace (ch =? 34) with false by lia.
    rewrite andb_false_r. reflexivity.
Qed.

(** What follows a plain scalar. *)
Lemma gap_chars g : Forall (fun x => Spec_Styles.space x \/ Spec_Styles.line_break x) (gtext lf g).
Proof.
  induction g as [|b g IH]; [constructor|]. change (gtext lf (b :: g)) with ((if b then lf else [32]) ++ gtext lf g). apply Forall_app. split; [|exact IH]. destruct b; [|repeat constructor].
  unfold Spec_Styles.line_break. destruct Hlf as [-> |[-> | ->]]; repeat constructor; right; auto.
Qed.
Lemma gap_split g : gnl g = true -> exists (a : str) y b, gtext lf g = a ++ y :: b /\ Spec_Styles.line_break y /\ Forall Spec_Styles.space b /\ forall x, cadv x (gtext lf g) = N.of_nat (length b).
Proof.
  induction g as [|b g IH]; [discriminate|]. intros H. change (gtext lf (b :: g)) with ((if b then lf else [32]) ++ gtext lf g). destruct (gnl g) eqn:Eg.
  - destruct (IH eq_refl) as (a & y & d & E & Hy & Hd & Hc). exists ((if b then lf else [32]) ++ a), y, d. split; [rewrite E, app_assoc; reflexivity|]. split; [exact Hy|]. split; [exact Hd|].
    intros x. unfold cadv. rewrite fold_left_app. apply Hc.
  - destruct b; [|change (gnl g = true) in H; congruence]. assert (Es : gtext lf g = repeat 32 (length g)).
    { clear -Eg. induction g as [|[] g IH]; [reflexivity|discriminate Eg|]. change (gtext lf (false :: g)) with (32 :: gtext lf g). rewrite IH by exact Eg. reflexivity. }
    assert (Fs : Forall Spec_Styles.space (gtext lf g)) by (rewrite Es; clear; induction (length g); constructor; [reflexivity|assumption]).
    assert (Hc : cadv 0 (gtext lf g) = N.of_nat (length (gtext lf g))).
    { rewrite Es, repeat_length. clear. assert (G : forall n x, cadv x (repeat 32 n) = x + N.of_nat n); [|apply G]. induction n as [|n IH]; intros x; [cbn; lia|]. unfold cadv in *. cbn [repeat fold_left]. change (breaks_line 32) with false. cbv iota. rewrite IH. lia. }
    exists (removelast lf), (last lf 0), (gtext lf g). split; [destruct Hlf as [-> |[-> | ->]]; reflexivity|]. split; [unfold Spec_Styles.line_break; destruct Hlf as [-> |[-> | ->]]; cbn; auto|]. split; [exact Fs|].
    intros x. unfold cadv in *. rewrite fold_left_app. assert (fold_left (fun x c => if breaks_line c then 0 else x + 1) lf x = 0) as -> by (destruct Hlf as [-> |[-> | ->]]; reflexivity). exact Hc.
Qed.
Lemma gap_break g : existsb is_break_c (gtext lf g) = gnl g.
Proof.
  induction g as [|b g IH]; [reflexivity|]. change (gtext lf (b :: g)) with ((if b then lf else [32]) ++ gtext lf g). rewrite existsb_app, IH. cbn [gnl existsb]. f_equal. destruct b; [|reflexivity]. destruct Hlf as [-> |[-> | ->]]; reflexivity.
Qed.
Lemma off_map {A} (l : list A) : live (map (fun _ => SOff) l) = false. Proof. induction l; auto. Qed.
Lemma walk_live w ls ls1 : walk w ls = Some ls1 -> live (lsl ls1) = live (lsl ls) /\ (has_break w = true -> live (lsl ls) = false).
Proof.
  unfold walk. destruct (has_break w).
  - destruct (live (lsl ls)) eqn:El; [discriminate|]. intros [= <-]. cbn [lsl]. split; [apply off_map|auto].
  - destruct (forallb _ _); [|discriminate]. intros [= <-]. cbn [lsl]. split; [|discriminate]. apply live_map. intros []; reflexivity.
Qed.
Lemma lf_breaks : has_break lf = true. Proof. destruct Hlf as [-> |[-> | ->]]; reflexivity. Qed.
Lemma pre_need a : forallb is_pre a = true -> forall ls ls1 tk, lrun ls a = Some (ls1, tk) ->
  lv ls1 = lv ls /\ lcol ls1 = cadv (lcol ls) (texts a) /\ lpop ls1 ++ lli ls1 = lpop ls ++ lli ls /\ (gnl (gap_of a) = true -> live (lsl ls) = false) /\
  (forall x b, ln ls = Gapped x b -> exists x', ln ls1 = Gapped x' (b || gnl (gap_of a))).
Proof.
  induction a as [|i a IH]; intros Hp ls ls1 tk H.
  - cbn [lrun] in H. injection H as <- _. split; [reflexivity|]. split; [reflexivity|]. split; [reflexivity|]. split; [discriminate|]. intros x b E. exists x. cbn. rewrite orb_false_r. exact E.
  - cbn [forallb] in Hp. apply andb_true_iff in Hp. destruct Hp as [Hp1 Hp2]. apply lrun_cons in H. destruct H as (s1 & t1 & t2 & E1 & E2 & _). destruct (IH Hp2 _ _ _ E2) as (I1 & I2 & I3 & I4 & I5).
    assert (X : lv s1 = lv ls /\ lcol s1 = cadv (lcol ls) (itext i) /\ lpop s1 ++ lli s1 = lpop ls ++ lli ls /\ live (lsl s1) = live (lsl ls) /\ (gnl (gap_of [i]) = true -> live (lsl ls) = false) /\ (forall x b, ln ls = Gapped x b -> exists x', ln s1 = Gapped x' (b || gnl (gap_of [i])))).
    { destruct i; try discriminate Hp1.
      - cbn [LayItems.lstep] in E1. destruct (guard _) as [[]|]; [|discriminate]. cbn [option_bind] in E1. destruct (walk [32] ls) as [y|] eqn:W; [|discriminate]. cbn [option_bind] in E1. injection E1 as <- _. pose proof (walk_live _ _ _ W) as [L1 L2]. apply walk_is in W. destruct W as (W1 & W2 & W3 & W4 & W5 & _ & W6).
        cbn [then_ lv lcol lpop lli lsl ln]. split; [congruence|]. split; [exact W2|]. split; [congruence|]. split; [exact L1|]. split; [discriminate|]. intros x b E. rewrite E. exists true. cbn. rewrite orb_false_r. reflexivity.
      - cbn [LayItems.lstep] in E1. destruct (guard _) as [[]|]; [|discriminate]. cbn [option_bind] in E1. destruct (walk lf ls) as [y|] eqn:W; [|discriminate]. cbn [option_bind] in E1. injection E1 as <- _. pose proof (walk_live _ _ _ W) as [L1 L2]. apply walk_is in W. destruct W as (W1 & W2 & W3 & W4 & W5 & _ & W6).
        cbn [then_ lv lcol lpop lli lsl ln]. split; [congruence|]. split; [exact W2|]. split; [congruence|]. split; [exact L1|]. split; [intros _; apply L2, lf_breaks|]. intros x b E. rewrite E. exists true. cbn. rewrite orb_true_r. reflexivity.
      - destruct (pop_ln IPop _ _ _ (or_introl eq_refl) E1) as (N1 & N2 & N3 & N4 & _ & N5). rewrite N1, N2, N3, N4, N5. split; [reflexivity|]. split; [reflexivity|]. split; [reflexivity|]. split; [reflexivity|]. split; [discriminate|]. intros x b E. exists x. cbn. rewrite orb_false_r. exact E.
      - destruct (pop_ln IMark _ _ _ (or_intror eq_refl) E1) as (N1 & N2 & N3 & N4 & _ & N5). rewrite N1, N2, N3, N4, N5. split; [reflexivity|]. split; [reflexivity|]. split; [reflexivity|]. split; [reflexivity|]. split; [discriminate|]. intros x b E. exists x. cbn. rewrite orb_false_r. exact E. }
    destruct X as (X1 & X2 & X3 & X4 & X5 & X6). assert (Eg : gnl (gap_of (i :: a)) = gnl (gap_of [i]) || gnl (gap_of a)) by (destruct i; try discriminate Hp1; reflexivity).
    split; [congruence|]. split; [rewrite I2, X2, texts_cons; unfold cadv; rewrite fold_left_app; reflexivity|]. split; [congruence|]. split.
    + rewrite Eg. intros D. apply orb_true_iff in D. destruct D as [D|D]; [exact (X5 D)|rewrite <- X4; exact (I4 D)].
    + intros x b E. destruct (X6 _ _ E) as (x1 & E3). destruct (I5 _ _ E3) as (x2 & E4). exists x2. rewrite E4, Eg, orb_assoc. reflexivity.
Qed.
Lemma guard_is b u : guard b = Some u -> b = true. Proof. destruct b; [reflexivity|discriminate]. Qed.
Lemma itext_start i r : item_ok i -> is_pre i = false -> tok_start (itext i ++ r) /\ itext i <> [].
Proof.
  intros Hi Hg. destruct i; try discriminate Hg; cbn [LayItems.itext]; try (split; [repeat split; discriminate|discriminate]).
  - destruct mp; split; [repeat split; discriminate|discriminate|repeat split; discriminate|discriminate].
  - destruct mp; split; [repeat split; discriminate|discriminate|repeat split; discriminate|discriminate].
  - destruct alias; split; [repeat split; discriminate|discriminate|repeat split; discriminate|discriminate].
  - destruct (CanonItems.form_first f Hi) as (w & ->). split; [repeat split; discriminate|discriminate].
  - destruct single; split; [repeat split; discriminate|discriminate|repeat split; discriminate|discriminate].
  - destruct Hi as (u & v & Hpt & Hv & Hp & Hh & Hd & Hc & _ & Htl). destruct (plain_first u flow v ats Hpt Hv Hp Hh Hd Htl) as (ch & w & Ef & F1 & F2 & F3 & _). rewrite Ef. split; [|discriminate].
    unfold is_blankz, is_breakz in F1. rewrite !orb_false_iff in F1. cbn [app tok_start]. cbn [In] in F3. split; [apply F1|]. split; [apply F1|]. split; [intros ->; apply F3; auto|exact F2].
  - destruct li; split; [repeat split; discriminate|discriminate|repeat split; discriminate|discriminate].
Qed.
Lemma texts_start r : Forall item_ok r -> match r with [] => True | i :: _ => is_pre i = false end -> tok_start (texts r).
Proof. intros H Hr. destruct r as [|i r]; [exact Logic.I|]. rewrite texts_cons. apply itext_start; [exact (Forall_inv H)|exact Hr]. Qed.
Lemma start_not_white t : tok_start t -> forall x b, t = x :: b -> ~ Spec_Styles.white x.
Proof.
  intros Ht x b ->. destruct Ht as (H1 & H2 & _). unfold Spec_Styles.white, Spec_Styles.blank, Spec_Styles.line_break. intros [[-> | ->]|[-> |[-> |[-> |[-> | ->]]]]]; discriminate H1 || discriminate H2.
Qed.
Lemma behind_white t : blank_behind t -> Spec_Styles.white_behind t.
Proof. unfold blank_behind. destruct t as [|x t]; [intros _; exact Logic.I|]. intros H. apply white_blankz. exact H. Qed.
Lemma follow_x flow ind a r ls lsA tkA lsE tkE : forallb is_pre a = true -> match r with [] => True | i :: _ => is_pre i = false end -> Forall item_ok r ->
  ln ls = Gapped false false -> lrun ls a = Some (lsA, tkA) -> lrun lsA r = Some (lsE, tkE) -> flow = negb (lv ls =? 0) -> lpop ls = [] -> (live (lsl ls) = false -> (top (lli ls) < ind)%Z) ->
  Spec_RoundTrip.plain_follow flow ind (texts a) (texts r).
Proof.
  intros Hp Hr Hok Hn Ha Hrun Hfl Hpop Hind. destruct (pre_need a Hp _ _ _ Ha) as (P1 & P2 & P3 & P4 & P5). destruct (P5 _ _ Hn) as (x' & Ln). cbn [orb] in Ln. rewrite (gap_text a Hp) in *.
  split; [apply gap_chars|]. split; [apply start_not_white, texts_start; assumption|]. destruct r as [|i r]; [left; reflexivity|]. right.
  apply lrun_cons in Hrun. destruct Hrun as (ls1 & t1 & t2 & E1 & E2 & _). rewrite texts_cons.
  assert (GN : opens_gate lsA GNode = true -> exists (a0 : str) y b, gtext lf (gap_of a) = a0 ++ y :: b /\ Spec_Styles.line_break y /\ Forall Spec_Styles.space b /\ (flow = false /\ (Z.of_nat (length b) < ind)%Z \/ b = [] /\ exists x r0, (x = 45 \/ x = 46) /\ itext i ++ texts r = [x; x; x] ++ r0 /\ Spec_Styles.white_behind r0)).
  { unfold opens_gate. rewrite Ln. intros G. apply andb_true_iff in G. destruct G as [G G3]. apply andb_true_iff in G. destruct G as [G1 G2]. destruct (gap_split _ G1) as (a0 & y & b & F1 & F2 & F3 & F4). exists a0, y, b. split; [exact F1|]. split; [exact F2|]. split; [exact F3|]. left.
    rewrite P1 in G2. split; [rewrite Hfl, G2; reflexivity|]. rewrite P2, F4, P3, Hpop in G3. cbn [app] in G3. specialize (Hind (P4 G1)). clear -G3 Hind. lia. }
  assert (GM : opens_gate lsA GMark = true -> lcol lsA = 0 -> forall x, (x = 45 \/ x = 46) -> itext i = [x; x; x] -> ln ls1 = Blank -> exists (a0 : str) y b, gtext lf (gap_of a) = a0 ++ y :: b /\ Spec_Styles.line_break y /\ Forall Spec_Styles.space b /\ (flow = false /\ (Z.of_nat (length b) < ind)%Z \/ b = [] /\ exists x r0, (x = 45 \/ x = 46) /\ itext i ++ texts r = [x; x; x] ++ r0 /\ Spec_Styles.white_behind r0)).
  { unfold opens_gate. rewrite Ln. intros G Hc x Hx Ei Hb. destruct (gap_split _ G) as (a0 & y & b & F1 & F2 & F3 & F4). exists a0, y, b. split; [exact F1|]. split; [exact F2|]. split; [exact F3|]. right.
    rewrite P2, F4 in Hc. split; [destruct b; [reflexivity|cbn in Hc; lia]|]. exists x, (texts r). rewrite Ei. split; [exact Hx|]. split; [reflexivity|]. apply behind_white. eapply blank_text; eassumption. }
  assert (O : forall lsx, outer_line lsA = Some lsx -> lcol lsA = 0) by (intros lsx O; apply (outer_is _ _ O)).
  destruct i; try discriminate Hr; cbn [LayItems.lstep] in E1;
    try (match goal with H : option_bind (guard ?b) _ = Some _ |- _ => destruct (guard b) as [u|] eqn:Eg; [|discriminate]; apply guard_is in Eg; cbn [option_bind] in H end).
  - right. right. right. apply GN. exact Eg.
  - apply andb_true_iff in Eg. destruct Eg as [_ Eg]. right. left. split; [rewrite Hfl, <- P1; lia|]. eexists _, _. split; [reflexivity|]. destruct mp; cbn; auto 10.
  - apply andb_true_iff in Eg. destruct Eg as [_ Eg]. right. left. split; [rewrite Hfl, <- P1; lia|]. eexists _, _. split; [reflexivity|]. cbn; auto 10.
  - apply andb_true_iff in Eg. right. right. right. apply GN, Eg.
  - right. right. right. apply GN, Eg.
  - left. exists (texts r). split; [reflexivity|]. apply behind_white. eapply blank_text; [exact E2|]. clear -E1. destruct (flush lsA) as [f|]; [|discriminate]. cbn [option_bind] in E1. destruct (lsl f) as [|[| |kd c u] q]; try discriminate E1.
    + destruct (guard _); [|discriminate]. cbn [option_bind] in E1. destruct (walk _ _); [|discriminate]. injection E1 as <- _. reflexivity.
    + destruct (guard _); [|discriminate]. cbn [option_bind] in E1. destruct (walk _ _); [|discriminate]. injection E1 as <- _. reflexivity.
  - right. right. right. apply GN, Eg.
  - right. right. right. apply GN, Eg.
  - right. right. right. apply GN, Eg.
  - right. right. right. apply GN, Eg.
  - apply andb_true_iff in Eg. right. right. right. apply GN, Eg.
  - right. right. right. destruct (outer_line lsA) as [lsx|] eqn:Ol; [|discriminate]. cbn [option_bind] in E1. destruct (walk _ lsx); [|discriminate]. injection E1 as <- _. apply (GM Eg (O _ eq_refl) 45); auto.
  - right. right. right. destruct (outer_line lsA) as [lsx|] eqn:Ol; [|discriminate]. cbn [option_bind] in E1. destruct (walk _ lsx); [|discriminate]. injection E1 as <- _. apply (GM Eg (O _ eq_refl) 46); auto.
  - rewrite Ln in Eg. discriminate.
  - rewrite Ln in Eg. discriminate.
Qed.



Definition result (ls1 ls : lstate) (tk : list token_data) (p w : str) (rest : list item) (s s' : sst) : Prop :=
  exists b r ls' tkb, rest = b ++ r /\ forallb is_pre b = true /\ lrun ls1 b = Some (ls', tkb) /\ Rx ls' (p ++ w ++ texts b) (texts r) s' /\ E ls' s' = E ls s ++ tk ++ tkb /\ kept s s'.
Lemma done_result f ls ls1 tk p w rest s : done f ls ls1 tk p w (texts rest) s -> exists s', f s = (Ok tt, s') /\ result ls1 ls tk p w rest s s'.
Proof.
  intros (s' & E1 & X & E2 & K). exists s'. split; [exact E1|]. exists [], rest, ls1, []. split; [reflexivity|]. split; [reflexivity|]. split; [reflexivity|]. cbn [texts flat_map]. rewrite !app_nil_r. auto.
Qed.
Lemma save_level ls ls1 tk : save ls = Some (ls1, tk) -> lv ls1 = lv ls. Proof. intros H. apply (save_pop _ _ _ H). Qed.
Lemma plain_x flow k ats rest ls ls2 tk ls3 lsE tkE p s : R0 ls p s -> lpop ls = [] -> Hx p (flat ats ++ texts rest) s -> simple_key_allowed s = lal ls -> save ls = Some (ls2, tk) ->
  item_ok (IPlain flow k ats) -> Bool.eqb flow (negb (lv ls =? 0)) && (flow || (top (lli ls2) <? Z.of_N k)%Z) && (k <=? lcol ls + 1) = true -> walk (flat ats) ls2 = Some ls3 ->
  lrun (then_ false (Gapped false false) ls3) rest = Some (lsE, tkE) -> Forall item_ok rest ->
  exists s', fetch_rest s = (Ok tt, s') /\ result (then_ false (Gapped false false) ls3) ls (tk ++ [TScalar (den g0 ats) SPlain]) p (flat ats) rest s s'.
Proof.
  intros R Hp Hh Ha Sv (u & v & Hpt & Hv & Hpw & Hhw & Hd & Hc & Hk & Htl) Hg W Hrun Hok.
  apply andb_true_iff in Hg. destruct Hg as [Hg Hg3]. apply andb_true_iff in Hg. destruct Hg as [Hg1 Hg2]. apply Bool.eqb_prop in Hg1.
  destruct (split_items rest) as (a & r & -> & Hpa & Hr). apply Forall_app in Hok. destruct Hok as [_ Hok]. apply lrun_split in Hrun. destruct Hrun as (lsA & tkA & tkR & HrA & HrR & ->). rewrite texts_app in Hh.
  destruct (save_at _ _ _ _ _ R Hp Ha (Hx_pos _ _ _ _ Hh) Sv) as (ks & E1 & R1 & E2). destruct (save_pop _ _ _ Sv) as (V1 & V2 & V3).
  pose proof (walk_is _ _ _ W) as (W1 & W2 & W3 & W4 & _). pose proof (walk_live _ _ _ W) as [L1 _].
  set (s1 := set_simple_keys ks s) in *. set (s2 := set_simple_key_allowed false s1).
  assert (Hi : ideal s) by exact (r_ideal _ _ _ R). assert (Hi2 : ideal s2) by exact Hi.
  assert (Pop2 : lpop ls2 = []) by congruence. destruct (ind_top _ _ _ R1 Pop2) as (stk & _ & Ind & _). change (indent s1) with (indent s) in Ind.
  assert (Fl : negb (flow_level s =? 0) = flow) by (rewrite (r_level _ _ _ R); symmetry; exact Hg1).
  assert (Fo : Spec_RoundTrip.plain_follow flow (indent s + 1) (texts a) (texts r)).
  { eapply (follow_x flow (indent s + 1) a r _ lsA tkA lsE tkR); try eassumption; [reflexivity|cbn [then_ lv]; rewrite W1, V1; exact Hg1|cbn [then_ lpop]; congruence|].
    cbn [then_ lli lsl]. intros Nl. rewrite L1 in Nl. rewrite Ind, W3, (real_live _ Nl). lia. }
  set (tx := flat ats ++ texts a ++ texts r) in *. pose proof (Hx_at _ _ _ _ Hh Hi) as Es.
  destruct (plain_enter u flow v ats s (texts a) (texts r) (position p) Hpt Hv Hpw Hhw Hd Htl Fl Fo) as (_ & _ & _ & c & w & Ec & Ef). fold tx in Ef, Ec. rewrite <- Es in Ef. rewrite Ef. clear Ef.
  destruct (plain_enter u flow v ats s2 (texts a) (texts r) (position p) Hpt Hv Hpw Hhw Hd Htl Fl Fo) as (Q1 & Q2 & Q3 & _). fold tx in Q1, Q2, Q3.
  assert (H2 : Hx p tx s2) by (eapply Hx_ext; [exact Hh|reflexivity..]). pose proof (Hx_at _ _ _ _ H2 Hi2) as Es2.
  destruct (plain_at_state s2 flow lf Hi2 Hlf Fl (texts a) (texts r) ats (position p) k) as (e & al & m' & Ep & Eal).
  - exact Fo.
  - exact Hk.
  - intros Hf. change (indent s2) with (indent s). rewrite Ind. pose proof (real_top _ _ _ R1). rewrite Hf in Hg2. cbn [orb] in Hg2. lia.
  - exact Hpw.
  - exact Hhw.
  - eapply cols_mono; [|exact Hc]. rewrite (r_col _ _ _ R). lia.
  - exact (proj1 Q2).
  - fold tx in Ep. rewrite <- Es2 in Ep. rewrite <- Es2 in Q1, Q2. set (s3 := set_pos m' (set_buffer (texts r) (set_simple_key_allowed al s2))) in *.
    assert (H3 : Hx (p ++ flat ats ++ texts a) (texts r) s3).
    { eapply (scanned_hx p scan_plain_scalar (flat ats ++ texts a) (texts r) s2); [rewrite <- app_assoc; exact H2|exact Hi|reflexivity| |exact Ep].
      rewrite <- app_assoc. fold tx. apply (LexPlain.L_plain [] T 4 p tx s2 (Hx_any 4 p tx s2 H2 Hi2)); [lia|exact Q2|]. rewrite Ec in *. apply (LexNext.plain_ok [] T 4 p c w s2 (Hx_any 4 p _ s2 H2 Hi2)); [lia|exact Q1|].
      rewrite Es2, !bget_at. exact Q3. }
    assert (Cr : has_break (flat ats) = true -> snd (mk p) = true -> hd 0 (flat ats) <> 10).
    { intros _ _. destruct (plain_first u flow v ats Hpt Hv Hpw Hhw Hd Htl) as (ch & w' & Ef & F1 & _). rewrite Ef. cbn [hd]. intros ->. discriminate F1. }
    destruct (walk_at _ _ _ _ _ R1 W Cr) as [R2 E3]. destruct (R0_same ls3 ls3 (p ++ flat ats) s1 s3 R2) as [R3 E4]; auto.
    set (t := Mk_token (TScalar (den g0 ats) SPlain) (position p) e) in *.
    destruct (push_at ls3 (p ++ flat ats) s3 [t] R3) as [R4 E5]; [congruence|]. set (s4 := set_tokens (tokens s3 ++ [t]) s3) in *.
    destruct (pre_run a (texts r) Hpa ltac:(pose proof (texts_start r Hok Hr) as Ht; destruct (texts r) as [|x y]; [discriminate|]; destruct Ht as (_ & Hb & _); intros D; cbn [hd] in D; subst x; discriminate Hb) _ _ _ (p ++ flat ats) s4 HrA) as [R5 E6].
    { intros D. exfalso. destruct (pw_last flow ats false Hpw) as (y & x & Ey & Hx1); [destruct ats; [contradiction|discriminate]|]. rewrite Ey, app_assoc in D.
      assert (Nb : breaks_line x = false) by (rewrite LexBase.breaks_is; unfold is_blankz, is_breakz in Hx1; rewrite !orb_false_iff in Hx1; apply Hx1).
      discriminate (eq_trans (eq_sym D) (proj2 (LexBase.position_plain (p ++ y) x Nb))). }
    { apply R0_then, R4. }
    exists s4. split.
    + unfold fetch_plain_scalar. rewrite (bok _ _ _ _ _ E1), (bmod _ _ _ s2) by reflexivity. unfold push_scanned. rewrite (bok _ _ _ _ _ Ep). reflexivity.
    + exists a, r, lsA, tkA. split; [reflexivity|]. split; [exact Hpa|]. split; [exact HrA|]. split; [constructor|split].
      * eapply Hx_ext; [exact H3|reflexivity..].
      * rewrite app_assoc. exact R5.
      * change (simple_key_allowed s4) with al.
        destruct (pre_al a Hpa _ _ _ al HrA) as [V4 Al]; [unfold al_ok; cbn [then_ ln]; split; [discriminate|reflexivity]|].
        replace al with (al || (lv (then_ false (Gapped false false) ls3) =? 0) && gnl (gap_of a)); [exact Al|]. destruct (gnl (gap_of a)) eqn:Eg; [|rewrite andb_false_r; apply orb_false_r].
        rewrite (gap_text a Hpa), gap_break in Eal. rewrite (Eal Eg). reflexivity.
      * rewrite E6. change (E (then_ false (Gapped false false) ls3) s4) with (E ls3 s4). rewrite E5, E4, E3, E2, <- !app_assoc. reflexivity.
      * constructor; reflexivity.
Qed.



(** ** Literal scalars *)
Lemma lf_breaks_all : Forall (fun x => is_break_c x = true) lf. Proof. destruct Hlf as [-> |[-> | ->]]; repeat constructor. Qed.
Lemma cadv_lf x t : cadv x (lf ++ t) = cadv 0 t. Proof. unfold cadv. rewrite fold_left_app. f_equal. destruct Hlf as [-> |[-> | ->]]; reflexivity. Qed.
(** The white space behind a literal scalar: line breaks, then spaces. *)
Lemma lined_pre a : forallb is_pre a = true -> forall ls ls1 tk c b, lrun ls a = Some (ls1, tk) -> ln ls = Lined c b ->
  exists q k c', texts a = q ++ sps k /\ Forall (fun x => is_break_c x = true) q /\ (c = true -> q = []) /\ ln ls1 = Lined c' (b || negb (is_empty q)) /\
    (k = O \/ (Z.of_N (if is_empty q then lcol ls else 0) + Z.of_nat k <= top (lpop ls ++ lli ls))%Z).
Proof.
  induction a as [|i a IH]; intros Hp ls ls1 tk c b H Hn.
  - cbn [lrun] in H. injection H as <- _. exists [], O, c. cbn [is_empty negb]. rewrite orb_false_r. repeat split; auto.
  - cbn [forallb] in Hp. apply andb_true_iff in Hp. destruct Hp as [Hp1 Hp2]. apply lrun_cons in H. destruct H as (s1 & t1 & t2 & E1 & E2 & _). rewrite texts_cons.
    destruct i; try discriminate Hp1.
    + cbn [LayItems.lstep] in E1. destruct (guard (may_space ls)) as [[]|] eqn:G; [|discriminate]. apply guard_is in G. unfold may_space in G. rewrite Hn in G. apply andb_true_iff in G. destruct G as [G1 G2]. subst b.
      cbn [option_bind] in E1. destruct (walk [32] ls) as [y|] eqn:W; [|discriminate]. cbn [option_bind] in E1. injection E1 as <- _. apply walk_is in W. destruct W as (W1 & W2 & W3 & W4 & W5 & _ & W6).
      destruct (IH Hp2 _ _ _ true true E2) as (q & k & c' & X1 & X2 & X3 & X4 & X5); [cbn [then_ ln]; rewrite Hn; reflexivity|]. rewrite (X3 eq_refl) in *. cbn [is_empty then_ lcol lpop lli app] in *.
      exists [], (S k), c'. split; [cbn [LayItems.itext app]; rewrite X1; reflexivity|]. split; [constructor|]. split; [auto|]. split; [rewrite X4; reflexivity|]. right. cbn [is_empty].
      rewrite W3, W4 in X5. rewrite W2 in X5. change (cadv (lcol ls) [32]) with (lcol ls + 1) in X5. lia.
    + cbn [LayItems.lstep] in E1. destruct (guard (may_break ls)) as [[]|] eqn:G; [|discriminate]. apply guard_is in G. unfold may_break in G. rewrite Hn in G. destruct c; [discriminate|].
      cbn [option_bind] in E1. destruct (walk lf ls) as [y|] eqn:W; [|discriminate]. cbn [option_bind] in E1. injection E1 as <- _. apply walk_is in W. destruct W as (W1 & W2 & W3 & W4 & W5 & _ & W6).
      destruct (IH Hp2 _ _ _ false true E2) as (q & k & c' & X1 & X2 & X3 & X4 & X5); [cbn [then_ ln]; rewrite Hn; reflexivity|]. cbn [then_ lcol lpop lli] in *.
      exists (lf ++ q), k, c'. assert (Ne : is_empty (lf ++ q) = false) by (destruct Hlf as [-> |[-> | ->]]; reflexivity).
      split; [cbn [LayItems.itext]; rewrite X1, app_assoc; reflexivity|]. split; [apply Forall_app; split; [exact lf_breaks_all|exact X2]|]. split; [discriminate|]. split; [rewrite X4, Ne, orb_true_r; reflexivity|]. rewrite Ne.
      rewrite W3, W4 in X5. rewrite W2 in X5. replace (cadv (lcol ls) lf) with 0 in X5 by (rewrite <- (app_nil_r lf), cadv_lf; reflexivity). destruct (is_empty q); exact X5.
    + destruct (pop_ln IPop _ _ _ (or_introl eq_refl) E1) as (N1 & N2 & N3 & N4 & _ & N5). destruct (IH Hp2 _ _ _ c b E2) as (q & k & c' & X1 & X2 & X3 & X4 & X5); [congruence|]. exists q, k, c'. rewrite N3, N4 in X5. auto 10.
    + destruct (pop_ln IMark _ _ _ (or_intror eq_refl) E1) as (N1 & N2 & N3 & N4 & _ & N5). destruct (IH Hp2 _ _ _ c b E2) as (q & k & c' & X1 & X2 & X3 & X4 & X5); [congruence|]. exists q, k, c'. rewrite N3, N4 in X5. auto 10.
Qed.
Lemma lined_gate i ls x c b : lstep ls i = Some x -> is_pre i = false -> ln ls = Lined c b -> b = true.
Proof.
  intros H Hp Hn. destruct b; [reflexivity|]. exfalso.
  destruct i; try discriminate Hp; cbn [LayItems.lstep] in H; unfold opens_gate in H; rewrite Hn in H; cbn in H; discriminate H.
Qed.
Lemma ltext_last n v x : forall b, exists y, RoundLiteral.ltext lf n b (v ++ [x]) = y ++ (if is_break_c x then RoundLiteral.btext lf x else [x]).
Proof.
  induction v as [|c v IH]; intros b; cbn [app RoundLiteral.ltext].
  - destruct (is_break_c x); [exists []; apply app_nil_r|]. exists (if b then sps n else []). reflexivity.
  - destruct (is_break_c c).
    + destruct (IH true) as (y & ->). exists (RoundLiteral.btext lf c ++ y). rewrite app_assoc. reflexivity.
    + destruct (IH false) as (y & ->). exists ((if b then sps n else []) ++ c :: y). rewrite <- app_assoc. reflexivity.
Qed.
Lemma lit_cr p li n d v : v <> [] -> Forall RoundLiteral.lchar v -> snd (mk (p ++ itext (ILit li n d v))) = true -> lf = [13].
Proof.
  intros Hv Hl. destruct (exists_last Hv) as (v0 & x & ->). apply Forall_app in Hl. destruct Hl as [_ Hl]. apply Forall_inv in Hl. destruct Hl as [Hb _]. cbn [LayItems.itext]. set (bc := if li then 124 else 62). destruct (ltext_last (N.to_nat n) v0 x true) as (y & ->).
  set (w := RoundLiteral.hint_text (v0 ++ [x]) d ++ RoundLiteral.chomp_text (RoundLiteral.chomp_of (v0 ++ [x])) ++ lf ++ y ++ (if is_break_c x then RoundLiteral.btext lf x else [x])).
  assert (Ew : p ++ bc :: w = (p ++ bc :: RoundLiteral.hint_text (v0 ++ [x]) d ++ RoundLiteral.chomp_text (RoundLiteral.chomp_of (v0 ++ [x])) ++ lf ++ y) ++ (if is_break_c x then RoundLiteral.btext lf x else [x])).
  { subst w. rewrite <- !app_assoc. cbn [app]. rewrite <- !app_assoc. reflexivity. }
  rewrite Ew. clear Ew w. set (p' := p ++ _). intros D.
  assert (Plain : forall z, breaks_line z = false \/ z = 8232 \/ z = 8233 -> snd (mk (p' ++ [z])) = true -> False).
  { intros z Hz E0. assert (Nz : z <> 13) by (destruct Hz as [Hz|[-> | ->]]; [intros ->; discriminate Hz|discriminate|discriminate]). clear Hz. rewrite LexBase.mk_app in E0. destruct (mk p') as [m0 cr]. cbn [fold_left] in E0. unfold step_mark in E0.
    destruct (cr && (z =? 10)); [discriminate E0|]. destruct (breaks_line z); cbn [snd] in E0; [lia|discriminate E0]. }
  destruct (is_break_c x) eqn:Ex.
  - destruct (Hb eq_refl) as [-> |[-> | ->]].
    + exact (cr_lf _ D).
    + exfalso. exact (Plain 8232 (or_intror (or_introl eq_refl)) D).
    + exfalso. exact (Plain 8233 (or_intror (or_intror eq_refl)) D).
  - exfalso. apply (Plain x); [|exact D]. left. rewrite LexBase.breaks_is. exact Ex.
Qed.

Lemma lit_x li n d v rest ls ls2 ls3 lsE tkE p s : R0 ls p s -> lpop ls = [] -> Hx p (itext (ILit li n d v) ++ texts rest) s -> lv ls = 0 -> unsave ls = Some ls2 -> item_ok (ILit li n d v) -> lit_col n d v (top (lli ls2)) = true ->
  walk (itext (ILit li n d v)) ls2 = Some ls3 -> lrun (then_ true (Lined (RoundLiteral.ends v) (RoundLiteral.ends v)) ls3) rest = Some (lsE, tkE) -> final lsE -> Forall item_ok rest ->
  exists s', fetch_block_scalar li s = (Ok tt, s') /\ result (then_ true (Lined (RoundLiteral.ends v) (RoundLiteral.ends v)) ls3) ls [TScalar (RoundLiteral.read_back li v) (if li then SLiteral else SFolded)] p (itext (ILit li n d v)) rest s s'.
Proof.
  intros R Hp Hh Hv0 Us (Hv & Hl & Hd & Hn & _) Hcol W Hrun Hfin Hok. set (body := itext (ILit li n d v)) in *.
  destruct (split_items rest) as (a & r & -> & Hpa & Hr). apply Forall_app in Hok. destruct Hok as [_ Hok]. apply lrun_split in Hrun. destruct Hrun as (lsA & tkA & tkR & HrA & HrR & ->). rewrite texts_app in Hh.
  destruct (unsave_at _ _ _ _ R Us) as (k0 & ks & Ek & E1 & R1 & E2). destruct (unsave_is _ _ Us) as (r0 & El2 & _).
  set (s1 := set_simple_keys (sk_off k0 :: ks) s) in *. set (s2 := set_simple_key_allowed true s1).
  assert (Hi : ideal s) by exact (r_ideal _ _ _ R). assert (Hi2 : ideal s2) by exact Hi.
  pose proof (walk_is _ _ _ W) as (W1 & W2 & W3 & W4 & _). pose proof (walk_live _ _ _ W) as [L1 L2].
  assert (Hbk : has_break body = true).
  { subst body. unfold has_break. cbn [LayItems.itext]. change ((if li then 124 else 62) :: ?w) with ([if li then 124 else 62] ++ w). rewrite !existsb_app. fold (has_break lf). rewrite lf_breaks, !orb_true_r. reflexivity. }
  specialize (L2 Hbk). assert (Pop2 : lpop ls2 = []) by (rewrite El2; exact Hp). destruct (ind_top _ _ _ R1 Pop2) as (stk & _ & Ind & _). change (indent s1) with (indent s) in Ind. rewrite (real_live _ L2) in Ind.
  destruct (lined_pre a Hpa _ _ _ (RoundLiteral.ends v) (RoundLiteral.ends v) HrA eq_refl) as (q & k & c' & Ea & Hq & Hc & Lna & Hk). cbn [then_ lcol lpop lli] in Hk. rewrite W3, W4, Pop2 in Hk. cbn [app] in Hk.
  assert (Bk : RoundLiteral.ends v || negb (is_empty q) = true).
  { destruct r as [|i r]; [cbn [lrun] in HrR; injection HrR as <- _; destruct Hfin as (_ & _ & _ & _ & Hfin); rewrite Lna in Hfin; exact Hfin|]. apply lrun_cons in HrR. destruct HrR as (sx & t1 & t2 & Hs & _ & _). exact (lined_gate _ _ _ _ _ Hs Hr Lna). }
  assert (Htop : (top (lli ls2) < Z.of_N n)%Z) by (unfold lit_col in Hcol; destruct (RoundLiteral.hinted v); [destruct (Z.leb_spec 0 (top (lli ls2))); lia|lia]).
  assert (Hkn : (k < N.to_nat n)%nat) by (clear -Hk Htop Hn; lia).
  set (tx := body ++ texts a ++ texts r) in *. pose proof (Hx_at _ _ _ _ Hh Hi) as Es.
  assert (H2 : Hx p tx s2) by (eapply Hx_ext; [exact Hh|reflexivity..]). pose proof (Hx_at _ _ _ _ H2 Hi2) as Es2.
  pose proof (texts_start r Hok Hr) as Ts.
  destruct (RoundLiteral.block_at_state s2 lf Hi2 Hlf li (N.to_nat n) d v q (texts r) k) with (m := position p) as (e & m' & Ep).
  - clear -Hn. lia.
  - exact Hkn.
  - exact Hq.
  - apply start_not_white, Ts.
  - exact Hv.
  - exact Hl.
  - exact Hd.
  - exact Hc.
  - intros D. rewrite D in Bk. destruct q; [discriminate Bk|discriminate].
  - change (indent s2) with (indent s). rewrite Ind. unfold lit_col in Hcol. rewrite N_nat_Z. destruct (RoundLiteral.hinted v); clear -Hcol; lia.
  - assert (Etx : tx = RoundLiteral.block_char li :: RoundLiteral.hint_text v d ++ RoundLiteral.chomp_text (RoundLiteral.chomp_of v) ++ lf ++ RoundLiteral.ltext lf (N.to_nat n) true v ++ q ++ sps k ++ texts r).
    { subst tx body. rewrite Ea. cbn [LayItems.itext app]. rewrite <- !app_assoc. reflexivity. }
    rewrite <- Etx in Ep. rewrite <- Es2 in Ep. set (s3 := at_ s2 (texts r) m') in *.
    assert (H3 : Hx (p ++ body ++ texts a) (texts r) s3).
    { eapply (scanned_hx p (scan_block_scalar li) (body ++ texts a) (texts r) s2); [rewrite <- app_assoc; exact H2|exact Hi|reflexivity| |exact Ep].
      rewrite <- app_assoc. fold tx. apply (LexBlock.L_block [] T li 0 p tx s2 H2); [change (flow_level s2) with (flow_level s); rewrite (r_level _ _ _ R); exact Hv0|]. rewrite Es2, bget_at, Etx. destruct li; reflexivity. }
    assert (Cr : has_break body = true -> snd (mk p) = true -> hd 0 body <> 10) by (intros _ _; subst body; destruct li; discriminate).
    destruct (walk_at _ _ _ _ _ R1 W Cr) as [R2 E3]. destruct (R0_same ls3 ls3 (p ++ body) s1 s3 R2) as [R3 E4]; auto.
    set (t := Mk_token (TScalar (RoundLiteral.read_back li v) (if li then SLiteral else SFolded)) (position p) e) in *.
    destruct (push_at ls3 (p ++ body) s3 [t] R3) as [R4 E5]; [congruence|]. set (s4 := set_tokens (tokens s3 ++ [t]) s3) in *.
    assert (Hd10 : hd 0 (texts r) <> 10) by (destruct (texts r) as [|x y]; [discriminate|]; destruct Ts as (_ & Hb & _); intros D; cbn [hd] in D; subst x; discriminate Hb).
    destruct (pre_run a (texts r) Hpa Hd10 _ _ _ (p ++ body) s4 HrA) as [R5 E6].
    { intros D. apply hd_pre; [exact Hpa|exact (lit_cr _ _ _ _ _ Hv Hl D)|exact Hd10]. }
    { apply R0_then, R4. }
    exists s4. split.
    + unfold fetch_block_scalar. rewrite (bok _ _ _ _ _ E1), (bmod _ _ _ s2) by reflexivity. unfold push_scanned. rewrite (bok _ _ _ _ _ Ep). reflexivity.
    + exists a, r, lsA, tkA. split; [reflexivity|]. split; [exact Hpa|]. split; [exact HrA|]. split; [constructor|split].
      * eapply Hx_ext; [exact H3|reflexivity..].
      * rewrite app_assoc. exact R5.
      * change (simple_key_allowed s4) with true.
        destruct (pre_al a Hpa _ _ _ true HrA) as [V4 Al]; [reflexivity|]. exact Al.
      * rewrite E6. change (E (then_ true (Lined (RoundLiteral.ends v) (RoundLiteral.ends v)) ls3) s4) with (E ls3 s4). rewrite E5, E4, E3, E2, <- !app_assoc. reflexivity.
      * constructor; reflexivity.
Qed.

(** ** One item *)
Lemma quoted_any single ats rest s m : ideal s -> Forall (awf single lf) ats -> (forall x, cols 1 (x + 1) ats) -> (single = true -> chk 39 (hd_error rest) = false) ->
  scanned (scan_flow_scalar single) (quote_char single :: flat ats ++ [quote_char single]) rest (TScalar (den g0 ats) (if single then SSingle else SDouble)) s m.
Proof.
  intros Hid Hf Hc Hq. unfold scanned. cbn [app]. rewrite <- app_assoc. cbn [app].
  destruct (flow_at s single lf Hid Hlf rest Hq ats m Hf (Hc _)) as (m' & E). eexists _, _, m'. split; [exact E|].
  assert (H : spec (scan_flow_scalar single) (at_ s (quote_char single :: flat ats ++ quote_char single :: rest) m) (tok_post (at_ s (quote_char single :: flat ats ++ quote_char single :: rest) m))) by (apply scan_flow_scalar_spec; [apply Hid|discriminate]).
  unfold spec, wp in H. match type of H with (let (_, _) := ?q in _) => replace q with (Ok (Mk_token (TScalar (den g0 ats) (if single then SSingle else SDouble)) m m'), at_ s rest m') in H by (symmetry; exact E) end. destruct H as [H _]. apply adv_mark_le in H. unfold mark_le in H. cbn in H. lia.
Qed.
Lemma bind_some {A B} (o : option A) (f : A -> option B) b : option_bind o f = Some b -> exists a, o = Some a /\ f a = Some b. Proof. destruct o; [eauto|discriminate]. Qed.
Lemma gate_al ls a : opens_gate ls GNode = true -> al_ok ls a -> a = lal ls.
Proof.
  unfold opens_gate, al_ok. destruct (ln ls); try discriminate; auto. intros G [H _]. apply andb_true_iff in G. destruct G as [G _]. apply andb_true_iff in G. destruct G as [G1 G2]. destruct (H G1) as [A B]; [lia|congruence].
Qed.
Lemma texts_no_lf l : forall ls x, Forall item_ok l -> lrun ls l = Some x -> no_lf_before lf (texts l).
Proof.
  assert (G : forall t, hd 0 t <> 10 -> no_lf_before lf t) by (intros t Ht; unfold no_lf_before; destruct t as [|c t]; [exact Logic.I|]; cbn [hd] in Ht; repeat match goal with |- match ?d with _ => _ end => destruct d; try exact Logic.I end; congruence).
  intros ls x Hok _. unfold no_lf_before. destruct (split_items l) as (a & r & -> & Ha & Hr). apply Forall_app in Hok. destruct Hok as [_ Hok]. rewrite texts_app.
  pose proof (texts_start r Hok Hr) as Ts. destruct (list_eq_dec N.eq_dec lf [13]) as [E|N]; [|destruct (texts a ++ texts r) as [|c t]; [exact Logic.I|]; repeat match goal with |- match ?d with _ => _ end => destruct d; try exact Logic.I end; exact N].
  apply G. apply hd_pre; [exact Ha|exact E|]. destruct (texts r) as [|c t]; [discriminate|]. destruct Ts as (_ & Hb & _). cbn [hd]. intros ->. discriminate Hb.
Qed.
Lemma blank_not o c : is_blankz o = true -> is_blankz (Some c) = false -> chk c o = false.
Proof. destruct o as [x|]; [|reflexivity]. intros H1 H2. cbn [chk]. destruct (N.eqb_spec x c) as [-> |]; [congruence|reflexivity]. Qed.
Definition stepped (ls : lstate) (i : item) (rest : list item) (ls1 : lstate) (tk : list token_data) (p : str) (s : sst) : Prop :=
  exists s1, unroll_indent (bcol s) s = (Ok tt, s1) /\ ideal s1 /\ exists s', fetch_rest s1 = (Ok tt, s') /\ result ls1 ls tk p (itext i) rest s s'.
Lemma stepped_of ls i rest ls1 tk p s lsf s1 s' : unroll_indent (bcol s) s = (Ok tt, s1) -> ideal s1 -> E lsf s1 = E ls s -> kept s s1 -> fetch_rest s1 = (Ok tt, s') -> result ls1 lsf tk p (itext i) rest s1 s' -> stepped ls i rest ls1 tk p s.
Proof.
  intros E1 Hi E2 K E3 (b & r & ls' & tkb & X1 & X2 & X3 & X4 & X5 & X6). exists s1. split; [exact E1|]. split; [exact Hi|]. exists s'. split; [exact E3|]. exists b, r, ls', tkb. repeat split; auto; try apply X4; [congruence|destruct K, X6; congruence..].
Qed.
Lemma item_x i rest ls ls1 tk lsE tkE p s : Rx ls p (itext i ++ texts rest) s -> fresh (lsl ls) (simple_keys s) -> is_pre i = false -> item_ok i -> Forall item_ok rest ->
  lstep ls i = Some (ls1, tk) -> lrun ls1 rest = Some (lsE, tkE) -> final lsE -> stepped ls i rest ls1 tk p s.
Proof.
  intros [Hh R Ha] Hfr Hg Hi Hok Hs Hrun Hfin. pose proof (Hx_pos _ _ _ _ Hh) as Hpos.
  (* inside of the collections *)
  assert (FL : forall lsf, flush ls = Some lsf -> (forall s1, R0 lsf p s1 -> lpop lsf = [] -> Hx p (itext i ++ texts rest) s1 -> fresh (lsl lsf) (simple_keys s1) -> al_ok ls (simple_key_allowed s1) -> s1 = at_ s1 (itext i ++ texts rest) (position p) ->
      exists s', fetch_rest s1 = (Ok tt, s') /\ result ls1 lsf tk p (itext i) rest s1 s') -> stepped ls i rest ls1 tk p s).
  { intros lsf Hf K. destruct (flush_at _ _ _ _ R Hpos Hf) as (j & st & l & E1 & R1 & E2). set (s1 := set_tokens (tokens s ++ l) (set_indents st (set_indent j s))) in *.
    assert (Hh1 : Hx p (itext i ++ texts rest) s1) by (eapply Hx_ext; [exact Hh|reflexivity..]). pose proof (flush_pop _ _ Hf) as Ef.
    destruct (K s1 R1) as (s' & E3 & Rs); [rewrite Ef; reflexivity|exact Hh1|rewrite Ef; exact Hfr|exact Ha|exact (Hx_at _ _ _ _ Hh1 (r_ideal _ _ _ R1))|].
    eapply (stepped_of ls i rest ls1 tk p s lsf s1 s'); auto; [exact (r_ideal _ _ _ R1)|constructor; reflexivity]. }
  (* outside *)
  assert (OL : forall lso, outer_line ls = Some lso -> (forall po s1, R0 (with_pops po ls) p s1 -> Hx p (itext i ++ texts rest) s1 -> s1 = at_ s1 (itext i ++ texts rest) (position p) -> m_col (position p) = 0 ->
      exists s', fetch_rest s1 = (Ok tt, s') /\ result ls1 (with_pops po ls) tk p (itext i) rest s1 s') -> stepped ls i rest ls1 tk p s).
  { intros lso Ho K. destruct (first_unroll _ _ _ _ _ R Hh Ho) as (s1 & po & E1 & R1 & E2 & H1 & K1).
    destruct (K po s1 R1 H1 (Hx_at _ _ _ _ H1 (r_ideal _ _ _ R1))) as (s' & E3 & Rs); [rewrite (r_col _ _ _ R); apply (outer_is _ _ Ho)|].
    eapply (stepped_of ls i rest ls1 tk p s (with_pops po ls) s1 s'); auto. exact (r_ideal _ _ _ R1). }
  assert (BB : ln ls1 = Blank -> is_blankz (nth_error (texts rest) 0) = true) by (intros Hn; eapply blank_text; eassumption).
  destruct i; try discriminate Hg; cbn [LayItems.lstep] in Hs; apply bind_some in Hs; destruct Hs as (u & Eg & Hs); apply guard_is in Eg; apply bind_some in Hs; destruct Hs as (lsf & Hf & Hs).
  - (* open *)
    apply bind_some in Hs. destruct Hs as ([ls2 tk2] & Sv & Hs). apply bind_some in Hs. destruct Hs as (u2 & Eg2 & Hs). apply guard_is in Eg2. apply bind_some in Hs. destruct Hs as (ls3 & W & Hs). injection Hs as <- <-.
    apply (FL _ Hf). intros s1 R1 P1 H1 _ A1 Es. pose proof (flush_pop _ _ Hf) as Ef. assert (Ev : lv lsf = lv ls) by (rewrite Ef; reflexivity). assert (Eal : lal lsf = lal ls) by (rewrite Ef; reflexivity).
    rewrite <- Ev in *. pose proof (gate_al _ _ Eg A1) as A2. rewrite <- Eal in A2.
    assert (D : fetch_rest s1 = fetch_flow_collection_start (if mp then TFlowMappingStart else TFlowSequenceStart) s1).
    { rewrite Es, CanonItems.dispatch. destruct mp; cbn [LayItems.itext app nth_error]; cbv zeta; cbn [is_z chk N.eqb Pos.eqb]; rewrite ?andb_false_r; cbn [andb orb]; reflexivity. }
    rewrite D. apply done_result. apply (open_x p (texts rest) lsf s1 R1 P1 _ _ ls2 tk2 ls3 H1); auto. destruct mp; reflexivity.
  - (* close *)
    apply bind_some in Hs. destruct Hs as (ls2 & Us & Hs). apply bind_some in Hs. destruct Hs as (ls3 & W & Hs). injection Hs as <- <-. apply andb_true_iff in Eg. destruct Eg as [Eg Eg2].
    apply (FL _ Hf). intros s1 R1 P1 H1 _ A1 Es. pose proof (flush_pop _ _ Hf) as Ef. assert (Ev : lv lsf = lv ls) by (rewrite Ef; reflexivity). rewrite <- Ev in *.
    assert (D : fetch_rest s1 = fetch_flow_collection_end (if mp then TFlowMappingEnd else TFlowSequenceEnd) s1).
    { rewrite Es, CanonItems.dispatch. destruct mp; cbn [LayItems.itext app nth_error]; cbv zeta; cbn [is_z chk N.eqb Pos.eqb]; rewrite ?andb_false_r; cbn [andb orb]; reflexivity. }
    rewrite D. apply done_result. apply (close_x p (texts rest) lsf s1 R1 P1 _ _ ls2 ls3 H1); auto. destruct mp; reflexivity.
  - (* comma *)
    apply bind_some in Hs. destruct Hs as (ls2 & Us & Hs). apply bind_some in Hs. destruct Hs as (ls3 & W & Hs). injection Hs as <- <-.
    apply (FL _ Hf). intros s1 R1 P1 H1 _ A1 Es.
    assert (D : fetch_rest s1 = fetch_flow_entry s1) by (rewrite Es, CanonItems.dispatch; cbn [LayItems.itext app nth_error]; cbv zeta; cbn [is_z chk N.eqb Pos.eqb]; rewrite ?andb_false_r; cbn [andb orb]; reflexivity).
    rewrite D. apply done_result. apply (comma_x p (texts rest) lsf s1 R1 P1 ls2 ls3 H1); auto.
  - (* dash *)
    apply bind_some in Hs. destruct Hs as ([ls2 tk2] & Ro & Hs). apply bind_some in Hs. destruct Hs as (ls3 & Us & Hs). apply bind_some in Hs. destruct Hs as (ls4 & W & Hs). injection Hs as <- <-. apply andb_true_iff in Eg. destruct Eg as [Eg Eg2].
    specialize (BB eq_refl). apply (FL _ Hf). intros s1 R1 P1 H1 _ A1 Es. pose proof (flush_pop _ _ Hf) as Ef. assert (Ev : lv lsf = lv ls) by (rewrite Ef; reflexivity). assert (Eal : lal lsf = lal ls) by (rewrite Ef; reflexivity).
    pose proof (gate_al _ _ Eg A1) as A2. rewrite <- Eal in A2.
    assert (D : fetch_rest s1 = fetch_block_entry s1).
    { rewrite Es, CanonItems.dispatch. change (itext IDash ++ texts rest) with (45 :: texts rest). change (nth_error (45 :: texts rest) 1) with (nth_error (texts rest) 0). cbv zeta. rewrite (blank_not _ 45 BB eq_refl), BB.
      change (nth_error (45 :: texts rest) 0) with (Some 45). cbn [is_z chk N.eqb Pos.eqb]. rewrite ?andb_false_r. cbn [andb orb]. reflexivity. }
    rewrite D. apply done_result. apply (dash_x p (texts rest) lsf s1 R1 P1 ls2 tk2 ls3 ls4 H1); auto. lia.
  - (* key *)
    apply bind_some in Hs. destruct Hs as ([ls2 tk2] & Ro & Hs). apply bind_some in Hs. destruct Hs as (ls3 & Us & Hs). apply bind_some in Hs. destruct Hs as (ls4 & W & Hs). injection Hs as <- <-.
    specialize (BB eq_refl). apply (FL _ Hf). intros s1 R1 P1 H1 _ A1 Es. pose proof (flush_pop _ _ Hf) as Ef. assert (Ev : lv lsf = lv ls) by (rewrite Ef; reflexivity). assert (Eal : lal lsf = lal ls) by (rewrite Ef; reflexivity).
    pose proof (gate_al _ _ Eg A1) as A2. rewrite <- Eal in A2. rewrite <- Ev in *.
    assert (D : fetch_rest s1 = fetch_key s1).
    { rewrite Es, CanonItems.dispatch. change (itext IKey ++ texts rest) with (63 :: texts rest). change (nth_error (63 :: texts rest) 1) with (nth_error (texts rest) 0). cbv zeta. rewrite BB.
      change (nth_error (63 :: texts rest) 0) with (Some 63). cbn [is_z chk N.eqb Pos.eqb]. rewrite ?andb_false_r, ?orb_true_r. cbn [andb orb]. reflexivity. }
    rewrite D. apply done_result. apply (key_x p (texts rest) lsf s1 R1 P1 ls2 tk2 ls3 ls4 H1); auto.
  - (* value *)
    assert (BB2 : is_blankz (nth_error (texts rest) 0) = true).
    { apply BB. clear -Hs. destruct (lsl lsf) as [|[| |kd c u] q]; try discriminate Hs; apply bind_some in Hs; destruct Hs as (? & _ & Hs); apply bind_some in Hs; destruct Hs as (? & _ & Hs); injection Hs as <- _; reflexivity. }
    apply andb_true_iff in Eg. destruct Eg as [Eg _].
    apply (FL _ Hf). intros s1 R1 P1 H1 F1 A1 Es. pose proof (flush_pop _ _ Hf) as Ef. assert (Ev : lv lsf = lv ls) by (rewrite Ef; reflexivity). assert (Eal : lal lsf = lal ls) by (rewrite Ef; reflexivity). assert (Ecol : lcol lsf = lcol ls) by (rewrite Ef; reflexivity).
    assert (D : fetch_rest s1 = fetch_value s1).
    { rewrite Es, CanonItems.dispatch. change (itext IValue ++ texts rest) with (58 :: texts rest). change (nth_error (58 :: texts rest) 1) with (nth_error (texts rest) 0). cbv zeta. rewrite BB2.
      change (nth_error (58 :: texts rest) 0) with (Some 58). cbn [is_z chk N.eqb Pos.eqb]. rewrite ?andb_false_r, ?orb_true_r. cbn [andb orb]. reflexivity. }
    rewrite D. destruct (lsl lsf) as [|[| |kd c u1] q] eqn:Esl; try discriminate Hs; apply bind_some in Hs; destruct Hs as (u2 & Eg2 & Hs); apply guard_is in Eg2; apply bind_some in Hs; destruct Hs as (ls2 & W & Hs); injection Hs as <- <-; apply done_result.
    + rewrite <- Ev in *. apply (value_off_x p (texts rest) lsf s1 R1 P1 q ls2 H1 Esl); auto; [rewrite Esl; exact F1| |rewrite Eal, Ecol; exact Eg2].
      intros V0 L0. rewrite Eal in L0. clear -A1 L0 Eg V0 Ev. unfold al_ok in A1. destruct (ln ls); try congruence. destruct A1 as [A1 A2]. destruct broken; [destruct A1; [reflexivity|congruence|assumption]|specialize (A2 eq_refl); congruence].
    + rewrite <- Ev in *. apply (value_live_x p (texts rest) lsf s1 R1 P1 kd c u1 q ls2 H1 Esl Eg2 W).
  - (* name *)
    apply bind_some in Hs. destruct Hs as ([ls2 tk2] & Sv & Hs). apply bind_some in Hs. destruct Hs as (ls3 & W & Hs). injection Hs as <- <-. destruct Hi as [Hi1 Hi2].
    assert (NB : name_behind (texts rest)) by (destruct (sep_text _ false _ _ _ Hrun eq_refl) as [X|[X _]]; [exact X|discriminate X]).
    apply (FL _ Hf). intros s1 R1 P1 H1 _ A1 Es. pose proof (flush_pop _ _ Hf) as Ef. assert (Eal : lal lsf = lal ls) by (rewrite Ef; reflexivity). pose proof (gate_al _ _ Eg A1) as A2. rewrite <- Eal in A2.
    assert (D : fetch_rest s1 = fetch_anchor alias s1) by (rewrite Es, CanonItems.dispatch; destruct alias; cbn [LayItems.itext app nth_error]; cbv zeta; cbn [is_z chk N.eqb Pos.eqb]; rewrite ?andb_false_r; cbn [andb orb]; reflexivity).
    rewrite D. apply done_result. apply (scan_x p (texts rest) lsf s1 R1 P1 (scan_anchor alias) _ _ (Sep false) ls2 tk2 ls3 H1); auto.
    + intros s' Hs' _. apply (anchor_at alias a (texts rest) s' (position p) Hs' Hi1 Hi2 NB).
    + intros s' Hh' Hi'. apply (LexNames.L_anchor [] T alias 0 p _ s' Hh'). unfold bget. rewrite (Hx_buf _ _ _ _ Hh' Hi'). reflexivity.
    + intros _ _. destruct alias; discriminate.
  - (* tag *)
    apply bind_some in Hs. destruct Hs as ([ls2 tk2] & Sv & Hs). apply bind_some in Hs. destruct Hs as (ls3 & W & Hs). injection Hs as <- <-. specialize (BB eq_refl). destruct (CanonItems.form_first f Hi) as (w & Ew).
    apply (FL _ Hf). intros s1 R1 P1 H1 _ A1 Es. pose proof (flush_pop _ _ Hf) as Ef. assert (Eal : lal lsf = lal ls) by (rewrite Ef; reflexivity). pose proof (gate_al _ _ Eg A1) as A2. rewrite <- Eal in A2.
    assert (D : fetch_rest s1 = fetch_tag s1) by (rewrite Es, CanonItems.dispatch; cbn [LayItems.itext]; rewrite Ew; cbn [app nth_error]; cbv zeta; cbn [is_z chk N.eqb Pos.eqb]; rewrite ?andb_false_r; cbn [andb orb]; reflexivity).
    rewrite D. apply done_result. apply (scan_x p (texts rest) lsf s1 R1 P1 scan_tag _ _ Blank ls2 tk2 ls3 H1); auto.
    + intros s' Hs' _. apply (tag_at f (texts rest) s' (position p) Hs' Hi BB).
    + intros s' Hh' Hi'. apply (LexNames.L_tag [] T 0 p _ s' Hh'). unfold bget. rewrite (Hx_buf _ _ _ _ Hh' Hi'). cbn [LayItems.itext]. rewrite Ew. reflexivity.
    + intros _ _. cbn [LayItems.itext]. rewrite Ew. discriminate.
  - (* quoted *)
    apply bind_some in Hs. destruct Hs as ([ls2 tk2] & Sv & Hs). apply bind_some in Hs. destruct Hs as (ls3 & W & Hs). injection Hs as <- <-. destruct Hi as (Hi1 & Hi2 & _).
    assert (NB : chk 39 (hd_error (texts rest)) = false).
    { assert (Eh : forall t : str, hd_error t = nth_error t 0) by (intros []; reflexivity). rewrite Eh. destruct (sep_text _ true _ _ _ Hrun eq_refl) as [[X|X]|[_ X]]; [apply blank_not; [exact X|reflexivity]|destruct X as [<- |[<- |[<- |[]]]]; reflexivity|rewrite X; reflexivity]. }
    apply (FL _ Hf). intros s1 R1 P1 H1 _ A1 Es. pose proof (flush_pop _ _ Hf) as Ef. assert (Eal : lal lsf = lal ls) by (rewrite Ef; reflexivity). pose proof (gate_al _ _ Eg A1) as A2. rewrite <- Eal in A2.
    assert (D : fetch_rest s1 = fetch_flow_scalar single s1) by (rewrite Es, CanonItems.dispatch; destruct single; cbn [LayItems.itext quote_char app nth_error]; cbv zeta; cbn [is_z chk N.eqb Pos.eqb]; rewrite ?andb_false_r; cbn [andb orb]; reflexivity).
    rewrite D. apply done_result. apply (scan_x p (texts rest) lsf s1 R1 P1 (scan_flow_scalar single) _ _ (Sep true) ls2 tk2 ls3 H1); auto.
    + intros s' Hs' _. apply (quoted_any single ats (texts rest) s' (position p) Hs' Hi1 Hi2). auto.
    + intros s' Hh' Hi'. apply (LexQuoted.L_quoted [] T single 0 p _ s' Hh'). unfold bget. rewrite (Hx_buf _ _ _ _ Hh' Hi'). reflexivity.
    + intros _ _. destruct single; discriminate.
  - (* plain *)
    apply bind_some in Hs. destruct Hs as ([ls2 tk2] & Sv & Hs). apply bind_some in Hs. destruct Hs as (u2 & Eg2 & Hs). apply guard_is in Eg2. apply bind_some in Hs. destruct Hs as (ls3 & W & Hs). injection Hs as <- <-.
    apply (FL _ Hf). intros s1 R1 P1 H1 _ A1 Es. pose proof (flush_pop _ _ Hf) as Ef. assert (Ev : lv lsf = lv ls) by (rewrite Ef; reflexivity). assert (Eal : lal lsf = lal ls) by (rewrite Ef; reflexivity). assert (Ecol : lcol lsf = lcol ls) by (rewrite Ef; reflexivity).
    pose proof (gate_al _ _ Eg A1) as A2. rewrite <- Eal in A2. rewrite <- Ev, <- Ecol in *.
    apply (plain_x flow k ats rest lsf ls2 tk2 ls3 lsE tkE p s1 R1 P1 H1 A2 Sv Hi Eg2 W Hrun Hok).
  - (* literal *)
    apply bind_some in Hs. destruct Hs as (ls2 & Us & Hs). apply bind_some in Hs. destruct Hs as (u2 & Eg2 & Hs). apply guard_is in Eg2. apply bind_some in Hs. destruct Hs as (ls3 & W & Hs). injection Hs as <- <-. apply andb_true_iff in Eg. destruct Eg as [Eg Ev0].
    apply (FL _ Hf). intros s1 R1 P1 H1 _ A1 Es. pose proof (flush_pop _ _ Hf) as Ef. assert (Ev : lv lsf = lv ls) by (rewrite Ef; reflexivity).
    assert (D : fetch_rest s1 = fetch_block_scalar li s1).
    { rewrite Es, CanonItems.dispatch. destruct li; cbn [LayItems.itext app nth_error]; cbv zeta; cbn [is_z chk N.eqb Pos.eqb]; rewrite (r_level _ _ _ R1), Ev, Ev0, ?andb_false_r; cbn [andb orb negb]; reflexivity. }
    rewrite D. apply (lit_x li n d p0 rest lsf ls2 ls3 lsE tkE p s1 R1 P1 H1); auto. lia.
  - (* --- *)
    apply bind_some in Hs. destruct Hs as (ls2 & W & Hs). injection Hs as <- <-. specialize (BB eq_refl).
    apply (OL _ Hf). intros po s1 R1 H1 Es Hc.
    assert (D : fetch_rest s1 = fetch_document_indicator TDocumentStart s1).
    { rewrite Es, CanonItems.dispatch, Hc. change (itext IStart ++ texts rest) with (45 :: 45 :: 45 :: texts rest). change (nth_error (45 :: 45 :: 45 :: texts rest) 3) with (nth_error (texts rest) 0). cbv zeta. rewrite BB. reflexivity. }
    rewrite D. apply done_result. apply (marker_x TDocumentStart 45 (texts rest) ls lsf ls2 po p s1 R1 H1 eq_refl Hf W).
  - (* ... *)
    apply bind_some in Hs. destruct Hs as (ls2 & W & Hs). injection Hs as <- <-. specialize (BB eq_refl).
    apply (OL _ Hf). intros po s1 R1 H1 Es Hc.
    assert (D : fetch_rest s1 = fetch_document_indicator TDocumentEnd s1).
    { rewrite Es, CanonItems.dispatch, Hc. change (itext IEnd ++ texts rest) with (46 :: 46 :: 46 :: texts rest). change (nth_error (46 :: 46 :: 46 :: texts rest) 3) with (nth_error (texts rest) 0). cbv zeta. rewrite BB. reflexivity. }
    rewrite D. apply done_result. apply (marker_x TDocumentEnd 46 (texts rest) ls lsf ls2 po p s1 R1 H1 eq_refl Hf W).
  - (* %YAML *)
    apply bind_some in Hs. destruct Hs as (ls2 & W & Hs). injection Hs as <- <-. pose proof (texts_no_lf rest _ _ Hok Hrun) as Nl.
    apply (OL _ Hf). intros po s1 R1 H1 Es Hc.
    assert (D : fetch_rest s1 = fetch_directive s1) by (rewrite Es, CanonItems.dispatch, Hc; reflexivity).
    rewrite D. apply done_result. apply (directive_x (TVersionDirective 1 (Z.of_N d)) (itext (IVersion d)) (texts rest) ls lsf ls2 po p s1 R1 H1 Hf W eq_refl).
    intros s' Hs'. apply (version_at lf d (texts rest) s' (position p) Hs' Hlf Nl Hi).
  - (* %TAG *)
    apply bind_some in Hs. destruct Hs as (ls2 & W & Hs). injection Hs as <- <-. pose proof (texts_no_lf rest _ _ Hok Hrun) as Nl. destruct Hi as (Hi1 & Hi2 & Hi3).
    apply (OL _ Hf). intros po s1 R1 H1 Es Hc.
    assert (D : fetch_rest s1 = fetch_directive s1) by (rewrite Es, CanonItems.dispatch, Hc; reflexivity).
    rewrite D. apply done_result. apply (directive_x (TTagDirective h x) (itext (ITagDir h x)) (texts rest) ls lsf ls2 po p s1 R1 H1 Hf W eq_refl).
    intros s' Hs'. apply (tag_directive_at lf h x (texts rest) s' (position p) Hs' Hlf Nl Hi1 Hi2 Hi3).
Qed.



(** ** The queue of tokens *)
Definition ls0 : lstate := LS 0 0 [] [] true [SOff] false Free.
Definition count (l : list item) : nat := length (filter (fun i => negb (is_pre i)) l).
Lemma count_app a b : count (a ++ b) = (count a + count b)%nat. Proof. unfold count. rewrite filter_app, app_length. reflexivity. Qed.
Lemma count_len l : Forall item_ok l -> (count l <= length (texts l))%nat.
Proof.
  induction 1 as [|i l Hi _ IH]; [cbn; lia|]. rewrite texts_cons, app_length. unfold count in *. cbn [filter]. destruct (is_pre i) eqn:Ep; cbn [negb]; [lia|]. pose proof (proj2 (itext_start i [] Hi Ep)) as N. destruct (itext i); [congruence|]. cbn [length]. lia.
Qed.
(** [Scn s k l]: the tokens still to be delivered are [l], and at most [k] steps are needed to find them. *)
Inductive Scn (s : sst) : nat -> list token_data -> Prop :=
| Sc_init its lsE tk : ideal s -> Hx [] (texts its) s -> stream_start_produced s = false -> indents s = [] -> flow_level s = 0 -> simple_keys s = [] -> tokens s = [] ->
    lrun ls0 its = Some (lsE, tk) -> final lsE -> Forall item_ok its -> Scn s (2 + count its) (TStreamStart Utf8 :: tk ++ [TStreamEnd])
| Sc_go ls p its lsE tk : Rx ls p (texts its) s -> lrun ls its = Some (lsE, tk) -> final lsE -> Forall item_ok its -> Scn s (1 + count its) (E ls s ++ tk ++ [TStreamEnd])
| Sc_end : ideal s -> off (simple_keys s) -> Scn s 0 (map t_data (tokens s)).
Lemma fetch_scn s k l : Scn s (S k) l -> exists s' k', fetch_next_token s = (Ok tt, s') /\ Scn s' k' l /\ (k' <= k)%nat /\ kept s s'.
Proof.
  intros H. inversion H as [its lsE tk Hid Hh Hss Hin Hfl Hk Ht Hr Hl Hok E1 E2|ls p its lsE tk X Hr Hl Hok E1 E2|]; subst.
  - set (s2 := set_tokens (tokens s ++ [Mk_token (TStreamStart (enc s)) (pos s) (pos s)]) (set_stream_start_produced true (set_simple_key_allowed true (set_simple_keys (Mk_sk false false 0 mark0 :: simple_keys s) (set_indent (-1)%Z s))))).
    exists s2, (1 + count its)%nat. split; [|split; [|split; [lia|constructor; reflexivity]]].
    + rewrite (at_id s), fetch_eq, (bok _ _ _ _ _ (c_at s Hid _ _ _)), bgt, <- (at_id s), Hss. reflexivity.
    + assert (R2 : R0 ls0 [] s2).
      { constructor; auto; try reflexivity.
        - change (((-1)%Z :: indents s) = [(-1)%Z]). rewrite Hin. reflexivity.
        - change (simple_keys s2) with (Mk_sk false false 0 mark0 :: simple_keys s). rewrite Hk. constructor; [intros D; discriminate D|constructor].
        - constructor; [exact Logic.I|constructor]. }
      replace (TStreamStart Utf8 :: tk ++ [TStreamEnd]) with (E ls0 s2 ++ tk ++ [TStreamEnd]).
      * apply (Sc_go s2 ls0 [] its lsE tk); auto. constructor; [eapply Hx_ext; [exact Hh|reflexivity..]|exact R2|reflexivity].
      * unfold E. cbn [ls0 lsl lpop live length repeat]. change (tokens s2) with (tokens s ++ [Mk_token (TStreamStart (enc s)) (pos s) (pos s)]). rewrite Ht. rewrite not_live_of by reflexivity. cbn [put app map t_data]. rewrite (proj1 (proj2 Hid)). reflexivity.
  - destruct (split_items its) as (a & r & -> & Ha & Hr2). pose proof Hok as Hok'. apply Forall_app in Hok'. destruct Hok' as [_ Hok2]. apply lrun_split in Hr. destruct Hr as (lsA & tkA & tkR & HrA & HrR & ->). rewrite texts_app in X.
    pose proof (r_ideal _ _ _ (x_r0 _ _ _ _ X)) as Hid. pose proof (r_start _ _ _ (x_r0 _ _ _ _ X)) as Hst.
    destruct (to_next a (texts r) ls lsA tkA p s Ha (texts_start r Hok2 Hr2) X HrA) as (al & F1 & X1 & F2). set (s1 := at_ (set_simple_key_allowed al s) (texts r) (position (p ++ texts a))) in *. set (p1 := p ++ texts a) in *.
    destruct (stale_at lsA p1 s1 (x_r0 _ _ _ _ X1) (Hx_pos _ _ _ _ (x_hx _ _ _ _ X1))) as (ks & F3 & R2 & Fr & F4 & _). set (s2 := set_simple_keys ks s1) in *.
    assert (X2 : Rx lsA p1 (texts r) s2) by (constructor; [eapply Hx_ext; [exact (x_hx _ _ _ _ X1)|reflexivity..]|exact R2|exact (x_al _ _ _ _ X1)]).
    assert (Ff : fetch_next_token s = (unroll_indent (bcol s2) ;; cache 4 ;; fetch_rest) s2).
    { rewrite fetch_eq. assert (C1 : cache 1 s = (Ok tt, s)) by (apply c_cache, Hid). rewrite (bok _ _ _ _ _ C1), bgt, Hst. cbn [negb]. rewrite (bok _ _ _ _ _ F1), (bok _ _ _ _ _ F3), bgt. reflexivity. }
    assert (K2 : kept s s2) by (constructor; reflexivity).
    destruct r as [|i r].
    + cbn [lrun] in HrR. injection HrR as <- <-. destruct (end_x _ _ _ R2 (x_hx _ _ _ _ X2) Hl) as (s3 & s' & G1 & G2 & G3 & G4 & G5 & G6 & G7 & G8).
      exists s', 0%nat. split; [|split; [|split; [lia|eapply kept_trans; eassumption]]].
      * rewrite Ff, (bok _ _ _ _ _ G1). assert (C4 : cache 4 s3 = (Ok tt, s3)) by (apply c_cache, G3). rewrite (bok _ _ _ _ _ C4). rewrite (Hx_at _ _ _ _ G2 G3), CanonItems.dispatch. cbv zeta. cbn [nth_error is_z]. rewrite <- (Hx_at _ _ _ _ G2 G3). exact G4.
      * replace (E ls s ++ (tkA ++ []) ++ [TStreamEnd]) with (map t_data (tokens s')); [apply Sc_end; assumption|]. rewrite G6, F4, F2, app_nil_r, <- app_assoc. reflexivity.
    + apply lrun_cons in HrR. destruct HrR as (ls1 & t1 & t2 & Hs & Hr & ->). rewrite texts_cons in X2.
      destruct (item_x i r lsA ls1 t1 lsE t2 p1 s2 X2 Fr Hr2 (Forall_inv Hok2) (Forall_inv_tail Hok2) Hs Hr Hl) as (s3 & G1 & G2 & s' & G3 & b & r' & ls' & tkb & -> & Pb & Rb & X3 & E3 & K3).
      apply lrun_split in Hr. destruct Hr as (lsx & tkx & tky & Rb' & Rr & ->). rewrite Rb in Rb'. injection Rb' as <- <-.
      exists s', (1 + count r')%nat. split; [|split; [|split; [|eapply kept_trans; eassumption]]].
      * rewrite Ff, (bok _ _ _ _ _ G1). assert (C4 : cache 4 s3 = (Ok tt, s3)) by (apply c_cache, G2). rewrite (bok _ _ _ _ _ C4). exact G3.
      * replace (E ls s ++ (tkA ++ t1 ++ tkb ++ tky) ++ [TStreamEnd]) with (E ls' s' ++ tky ++ [TStreamEnd]).
        -- eapply Sc_go; [exact X3|exact Rr|exact Hl|]. apply Forall_inv_tail in Hok2. apply Forall_app in Hok2. apply Hok2.
        -- rewrite E3, F4, F2, <- !app_assoc. reflexivity.
      * rewrite count_app. change (count (i :: b ++ r')) with (length (if negb (is_pre i) then i :: filter (fun i => negb (is_pre i)) (b ++ r') else filter (fun i => negb (is_pre i)) (b ++ r'))). rewrite Hr2. cbn [negb length]. fold (count (b ++ r')). rewrite count_app. lia.
Qed.
Lemma stale_off m ks : off ks -> stale_keys m ks = (ks, None).
Proof. induction 1 as [|k ks Hk _ IH]; [reflexivity|]. cbn [stale_keys]. rewrite IH. unfold sk_stale. rewrite Hk. reflexivity. Qed.
Lemma stale_scn s k l : Scn s k l -> exists s', stale_simple_keys s = (Ok tt, s') /\ Scn s' k l /\ kept s s' /\ tokens s' = tokens s.
Proof.
  intros H. inversion H as [its lsE tk Hid Hh Hss Hin Hfl Hk Ht Hr Hl Hok E1 E2|ls p its lsE tk X Hr Hl Hok E1 E2|Hid O]; subst.
  - exists s. unfold stale_simple_keys. rewrite Hk. cbn [stale_keys]. split; [f_equal; rewrite <- Hk; destruct s; reflexivity|]. repeat split. exact H.
  - destruct (stale_at ls p s (x_r0 _ _ _ _ X) (Hx_pos _ _ _ _ (x_hx _ _ _ _ X))) as (ks & F3 & R2 & Fr & F4 & _). exists (set_simple_keys ks s). split; [exact F3|]. split; [|split; [constructor; reflexivity|reflexivity]].
    rewrite <- F4. eapply Sc_go; eauto. destruct X as [X1 X2 X3]. constructor; [eapply Hx_ext; [exact X1|reflexivity..]|exact R2|exact X3].
  - exists s. unfold stale_simple_keys. rewrite (stale_off _ _ O). split; [f_equal; destruct s; reflexivity|]. repeat split. exact H.
Qed.
Lemma scn_len s k l : Scn s k l -> (k <= 2 + meas s)%nat.
Proof.
  intros H. inversion H as [its lsE tk Hid Hh Hss Hin Hfl Hk Ht Hr Hl Hok E1 E2|ls p its lsE tk X Hr Hl Hok E1 E2|Hid O]; subst.
  - pose proof (count_len _ Hok). unfold meas. rewrite (Hx_buf _ _ _ _ Hh Hid). unfold str, char in *. lia.
  - pose proof (count_len _ Hok). unfold meas. rewrite (Hx_buf _ _ _ _ (x_hx _ _ _ _ X) (r_ideal _ _ _ (x_r0 _ _ _ _ X))). unfold str, char in *. lia.
  - lia.
Qed.
Lemma E_ext ls s s' : simple_keys s' = simple_keys s -> tokens_parsed s' = tokens_parsed s -> tokens s' = tokens s -> E ls s' = E ls s. Proof. unfold E. intros -> -> ->. reflexivity. Qed.
Lemma more_at s k l : Scn s k l -> l <> [] -> exists s' k', fetch_more_tokens s = (Ok tt, s') /\ Scn s' k' l /\ stream_end_produced s' = stream_end_produced s /\ token_available s' = true /\ need_more_tokens s' = false.
Proof.
  intros H Hn. unfold fetch_more_tokens.
  match goal with |- context [loopM _ ?b _ _] => set (body := b) end.
  enough (G : forall n k s, Scn s k l -> (k < n)%nat -> exists s' k', loopM n body tt s = (Ok tt, s') /\ Scn s' k' l /\ kept s s' /\ need_more_tokens s' = false).
  { destruct (G (S (S (S (S (meas s))))) k s H) as (s' & k' & E1 & H' & K & T1); [pose proof (scn_len _ _ _ H); lia|].
    exists (set_token_available true s'), k'. split; [unfold bind; rewrite E1; reflexivity|]. split; [|split; [exact (kp_end _ _ K)|split; [reflexivity|exact T1]]].
    clear -H'. inversion H' as [its lsE tk Hid Hh Hss Hin Hfl Hk Ht Hr Hl Hok E1 E2|ls p its lsE tk X Hr Hl Hok E1 E2|Hid O]; subst.
    - eapply Sc_init; eauto. eapply Hx_ext; [exact Hh|reflexivity..].
    - change (E ls s') with (E ls (set_token_available true s')). eapply Sc_go; eauto. destruct X as [X1 X2 X3]. constructor; [eapply Hx_ext; [exact X1|reflexivity..]| |exact X3]. apply (R0_same ls ls p s' _ X2); auto; exact (r_ideal _ _ _ X2).
    - apply (Sc_end (set_token_available true s')); auto. }
  clear s k H. induction n as [|n IH]; intros k s H Hk; [lia|]. cbn [loopM].
  assert (St : exists s1, (if is_empty (tokens s) then ret tt else stale_simple_keys) s = (Ok tt, s1) /\ Scn s1 k l /\ kept s s1 /\ tokens s1 = tokens s).
  { destruct (is_empty (tokens s)); [exists s; repeat split; exact H|]. destruct (stale_scn _ _ _ H) as (s1 & A & B & C & D). exists s1. auto. }
  destruct St as (s1 & E1 & H1 & K1 & T1).
  assert (Eb : body tt s = (if negb (need_more_tokens s1) then ret (inr tt) else fetch_next_token ;; ret (inl tt)) s1).
  { subst body. cbv beta. rewrite bgt, (bok _ _ _ _ _ E1), bgt. reflexivity. }
  destruct (need_more_tokens s1) eqn:En; cbn [negb] in Eb.
  - destruct k as [|k].
    { exfalso. inversion H1 as [| |Hid O]; subst. unfold need_more_tokens in En. apply orb_true_iff in En. destruct En as [En|En].
      - destruct (tokens s1); [apply Hn; reflexivity|discriminate].
      - apply existsb_exists in En. destruct En as (x & Hx1 & En). rewrite Forall_forall in O. rewrite (O _ Hx1) in En. discriminate. }
    destruct (fetch_scn _ _ _ H1) as (s2 & k2 & E2 & H2 & L2 & K2).
    destruct (IH k2 s2 H2 ltac:(lia)) as (s3 & k3 & E3 & H3 & K3 & T3). exists s3, k3. split.
    + rewrite (bok (body tt) _ s (inl tt) s2); [exact E3|]. rewrite Eb, (bok _ _ _ _ _ E2). reflexivity.
    + split; [exact H3|]. split; [eapply kept_trans; [exact K1|eapply kept_trans; eassumption]|exact T3].
  - exists s1, k. split; [rewrite (bok (body tt) _ s (inr tt) s1 Eb); reflexivity|]. split; [exact H1|]. split; [exact K1|exact En].
Qed.

(** ** What the parser sees *)
Lemma live_ahead ls p s kd t : R0 ls p s -> need_more_tokens s = false -> live_of (lsl ls) (simple_keys s) = Some (kd, t) -> tokens_parsed s < t.
Proof.
  intros R Hn Hlv. pose proof (live_range _ _ _ _ _ R Hlv) as Hr. unfold need_more_tokens in Hn. apply orb_false_iff in Hn. destruct Hn as [_ Hn]. pose proof (r_keys _ _ _ R) as K.
  enough (t <> tokens_parsed s) by lia. intros ->. clear Hr R. revert Hlv Hn K. generalize (lsl ls) (simple_keys s). intros sl ks Hlv Hn K.
  induction K as [|x k sl ks Hk _ IH]; [discriminate|]. cbn [existsb] in Hn. apply orb_false_iff in Hn. destruct Hn as [Hn1 Hn2]. cbn [live_of] in Hlv. destruct x; auto. injection Hlv as <- Et. cbn [key_rel] in Hk. destruct Hk as (P1 & _). rewrite P1, Et, N.eqb_refl in Hn1. discriminate.
Qed.
Lemma E_front ls p s t r : R0 ls p s -> need_more_tokens s = false -> tokens s = t :: r ->
  exists q, E ls s = t_data t :: q /\ (forall d, E ls (set_tokens (Mk_token d (t_start t) (t_end t) :: r) s) = d :: q) /\
    (forall s', tokens s' = r -> tokens_parsed s' = tokens_parsed s + 1 -> simple_keys s' = simple_keys s -> E ls s' = q).
Proof.
  intros R Hn Et. unfold E. destruct (live_of (lsl ls) (simple_keys s)) as [[kd j]|] eqn:Hlv.
  - pose proof (live_ahead _ _ _ _ _ R Hn Hlv) as Lt. destruct (N.to_nat (j - tokens_parsed s)) as [|m] eqn:Em; [lia|].
    exists ((firstn m (map t_data r) ++ ins kd ++ skipn m (map t_data r)) ++ repeat TBlockEnd (length (lpop ls))). split; [|split].
    + cbn [put]. rewrite Em, Et. reflexivity.
    + intros d. cbn [simple_keys set_tokens tokens_parsed tokens]. rewrite Hlv. cbn [put]. rewrite Em. reflexivity.
    + intros s' -> E2 ->. rewrite Hlv. cbn [put]. replace (N.to_nat (j - tokens_parsed s')) with m by lia. reflexivity.
  - exists (map t_data r ++ repeat TBlockEnd (length (lpop ls))). split; [rewrite Et; reflexivity|]. split.
    + intros d. cbn [simple_keys set_tokens tokens_parsed tokens]. rewrite Hlv. reflexivity.
    + intros s' -> E2 ->. rewrite Hlv. reflexivity.
Qed.
Definition Sc (s : sst) (l : list token_data) : Prop := (exists k, Scn s k l) /\ stream_end_produced s = false /\ (token_available s = true -> need_more_tokens s = false).
Lemma more_ne s : need_more_tokens s = false -> tokens s <> []. Proof. unfold need_more_tokens. destruct (tokens s); [discriminate|discriminate]. Qed.
Lemma scn_front s k d l t r : Scn s k (d :: l) -> need_more_tokens s = false -> tokens s = t :: r -> t_data t = d.
Proof.
  intros H Hn Et. inversion H as [its lsE tk Hid Hh Hss Hin Hfl Hk Ht Hr Hl Hok E1 E2|ls p its lsE tk X Hr Hl Hok E1 E2|Hid O E1 E2]; subst.
  - rewrite Ht in Et. discriminate.
  - destruct (E_front _ _ _ _ _ (x_r0 _ _ _ _ X) Hn Et) as (q & Eq & _). rewrite Eq in E2. cbn [app] in E2. congruence.
  - rewrite Et in E2. cbn [map] in E2. congruence.
Qed.
Lemma peek_sc s d l : Sc s (d :: l) -> exists t r s', peek s = (Ok t, s') /\ t_data t = d /\ Sc s' (d :: l) /\ tokens s' = t :: r /\ token_available s' = true.
Proof.
  intros ((k & H) & He & Ha). unfold peek. rewrite bgt.
  assert (St : exists s1 k1, (if token_available s then ret tt else fetch_more_tokens) s = (Ok tt, s1) /\ Scn s1 k1 (d :: l) /\ stream_end_produced s1 = stream_end_produced s /\ token_available s1 = true /\ need_more_tokens s1 = false).
  { destruct (token_available s) eqn:Ea; [exists s, k; repeat split; auto|]. destruct (more_at _ _ _ H) as (s1 & k1 & A); [discriminate|]. exists s1, k1. exact A. }
  destruct St as (s1 & k1 & E1 & H1 & K1 & A1 & T1). rewrite (bok _ _ _ _ _ E1), bgt, A1. cbn [negb]. destruct (tokens s1) as [|t r] eqn:Et; [destruct (more_ne _ T1 Et)|].
  exists t, r, s1. split; [reflexivity|]. split; [eapply scn_front; eassumption|]. split; [|auto]. split; [eauto|]. split; [congruence|auto].
Qed.
Lemma R0_front ls p s t r d : R0 ls p s -> tokens s = t :: r -> R0 ls p (set_tokens (Mk_token d (t_start t) (t_end t) :: r) s).
Proof. intros R Et. destruct R. constructor; auto. eapply Forall2_imp; [|exact r_keys]. intros a b. apply key_grow. unfold next_token. rewrite Et. cbn [tokens tokens_parsed set_tokens length]. lia. Qed.
Lemma set_front_sc s d l t r d' : Sc s (d :: l) -> token_available s = true -> tokens s = t :: r -> exists s', set_front d' s = (Ok tt, s') /\ Sc s' (d' :: l) /\ tokens s' = Mk_token d' (t_start t) (t_end t) :: r /\ token_available s' = token_available s.
Proof.
  intros ((k & H) & He & Ha) Hav Et. specialize (Ha Hav). exists (set_tokens (Mk_token d' (t_start t) (t_end t) :: r) s). split; [unfold set_front, modify; rewrite Et; reflexivity|]. split; [|split; reflexivity].
  split; [|split; [exact He|intros _; unfold need_more_tokens in *; rewrite Et in Ha; exact Ha]]. exists k. inversion H as [its lsE tk Hid Hh Hss Hin Hfl Hk Ht Hr Hl Hok E1 E2|ls p its lsE tk X Hr Hl Hok E1 E2|Hid O E1 E2]; subst.
  - rewrite Ht in Et. discriminate.
  - destruct (E_front _ _ _ _ _ (x_r0 _ _ _ _ X) Ha Et) as (q & Eq & Eq2 & _). rewrite Eq in E2. cbn [app] in E2. injection E2 as E2 E3.
    replace (d' :: l) with (E ls (set_tokens (Mk_token d' (t_start t) (t_end t) :: r) s) ++ tk ++ [TStreamEnd]) by (rewrite Eq2, <- E3; reflexivity). eapply Sc_go; eauto.
    destruct X as [X1 X2 X3]. constructor; [eapply Hx_ext; [exact X1|reflexivity..]|apply R0_front; assumption|exact X3].
  - rewrite Et in E2. cbn [map] in E2. injection E2 as E2 E3. replace (d' :: l) with (map t_data (tokens (set_tokens (Mk_token d' (t_start t) (t_end t) :: r) s))) by (cbn [tokens set_tokens map t_data]; rewrite E3; reflexivity). apply Sc_end; auto.
Qed.
Lemma keys_off p n n' q sl ks : Forall2 (key_rel p n q) sl ks -> (length (filter is_live sl) = 0)%nat -> Forall2 (key_rel p n' q) sl ks.
Proof. induction 1 as [|x k sl ks Hk _ IH]; intros L; constructor; destruct x; cbn [filter is_live length] in L; try discriminate L; auto. Qed.
Lemma keys_next p n q sl ks : Forall2 (key_rel p n q) sl ks -> (length (filter is_live sl) <= 1)%nat -> (forall kd j, live_of sl ks = Some (kd, j) -> n < j) -> Forall2 (key_rel p (n + 1) q) sl ks.
Proof.
  induction 1 as [|x k sl ks Hk K IH]; intros L La; constructor.
  - destruct x; try exact Hk. cbn [live_of] in La. specialize (La _ _ eq_refl). cbn [key_rel] in Hk |- *. destruct Hk as (P1 & P2 & P3 & P4 & P5 & P6). repeat split; auto; lia.
  - destruct x; cbn [filter is_live length live_of] in L, La; [apply IH; assumption|apply IH; assumption|]. eapply keys_off; [exact K|lia].
Qed.
Lemma skip_sc s d l : Sc s (d :: l) -> token_available s = true -> exists s', skip_token s = (Ok tt, s') /\ stream_end_produced s' = match d with TStreamEnd => true | _ => false end /\ (stream_end_produced s' = false -> Sc s' l).
Proof.
  intros ((k & H) & He & Ha) Hav. specialize (Ha Hav). unfold skip_token. cbv zeta. change (tokens (set_tokens_parsed (tokens_parsed s + 1) (set_token_available false s))) with (tokens s). destruct (tokens s) as [|t r] eqn:Et; [destruct (more_ne _ Ha Et)|].
  pose proof (scn_front _ _ _ _ _ _ H Ha Et) as Ed.
  eexists. split; [reflexivity|]. split; [unfold is_stream_end; rewrite <- Ed; destruct (t_data t); reflexivity|].
  intros Hse. split; [|split; [exact Hse|discriminate]]. exists k.
  set (s1 := set_stream_end_produced (is_stream_end t) (set_tokens r (set_tokens_parsed (tokens_parsed s + 1) (set_token_available false s)))).
  inversion H as [its lsE tk Hid Hh Hss Hin Hfl Hk Ht Hr Hl Hok E1 E2|ls p its lsE tk X Hr Hl Hok E1 E2|Hid O E1 E2]; subst.
  - rewrite Ht in Et. discriminate.
  - destruct (E_front _ _ _ _ _ (x_r0 _ _ _ _ X) Ha Et) as (q & Eq & _ & Eq3). rewrite Eq in E2. cbn [app] in E2. injection E2 as E3.
    rewrite <- (Eq3 s1) in E3 by reflexivity. rewrite <- E3. eapply Sc_go; eauto.
    destruct X as [X1 X2 X3]. constructor; [eapply Hx_ext; [exact X1|reflexivity..]| |exact X3].
    assert (La : forall kd j, live_of (lsl ls) (simple_keys s) = Some (kd, j) -> tokens_parsed s < j) by (intros kd j; apply (live_ahead ls p s kd j X2 Ha)).
    destruct X2. constructor; auto. change (simple_keys s1) with (simple_keys s). change (tokens_parsed s1) with (tokens_parsed s + 1).
    replace (next_token s1) with (next_token s) by (unfold next_token; change (tokens s1) with r; change (tokens_parsed s1) with (tokens_parsed s + 1); rewrite Et; cbn [length]; lia).
    apply keys_next; assumption.
  - rewrite Et in E2. cbn [map] in E2. injection E2 as E3. rewrite <- E3. change r with (tokens s1). apply Sc_end; auto.
Qed.
End text.
End items.
