(** Prop_RoundTrip.v -- C30, C31, C32, C33: quoted, plain and literal scalars are read back as they were
    written.

    [runs m c d r c'] (EmitText.v): from an emitter in state [c], whatever is in its output buffer,
    whatever the output encoding and as long as no write fails, [m] writes the text [d] and returns [r].
    [to_come s tx] (Spec_RoundTrip.v): the scanner [s] has exactly the text [tx] to read, in whatever
    chunks.  [d] is any text the writer may write: for the width, indentation, line break style,
    column and other settings in [c]. *)
From Coq Require Import Lia ZifyBool ZifyNat ZifyN Bool.
From Verif Require Import Base Utf Chars State Reader Scanner EState Emitter EmitText EmitScalar RoundScan Spec_Styles Spec_RoundTrip
  EmitQuoted EmitSingle RoundCarry Chunk ChunkScan ScanFacts StyleFacts Prop_Styles EmitSession Prop_Emitter Api Spec_Scanner Spec_Reader Utf8Facts Prop_Reader Prop_Chunk RoundPlain EmitPlain RoundLiteral EmitLiteral Spec_Folded EmitFolded.
Open Scope N_scope.

Definition scalar_values (v : str) : Prop := Forall (fun ch : char => is_scalar ch = true) v.
(** Reading [d], whatever follows it: exactly one token, with value [v] and style [st]. *)
Definition reads_as (scan : M sst token) (d : str) (v : str) (st : scalar_style) (follows : str -> Prop) : Prop :=
  forall s rest, to_come s (d ++ rest) -> buffer s <> [] -> follows rest ->
  exists t s', scan s = (Ok t, s') /\ t_data t = TScalar v st /\ t_start t = pos s /\ to_come s' rest.

Lemma lf_ok_of c : em_line_break c <> BrAny -> lf_ok (break_chars (em_line_break c)).
Proof. unfold lf_ok. destruct (em_line_break c); cbn; auto. congruence. Qed.

Lemma flow_carry single lf l (v : str) (follows : str -> Prop) : lf_ok lf -> Forall (awf single lf) l -> (forall x, cols 1 (x + 1) l) -> den g0 l = v ->
  (forall rest, follows rest -> single = true -> chk 39 (hd_error rest) = false) ->
  reads_as (scan_flow_scalar single) (quote_char single :: flat l ++ [quote_char single]) v (if single then SSingle else SDouble) follows.
Proof.
  intros Hlf Hf Hc Hd Hfo s rest T Hb Hr. set (tx := (quote_char single :: flat l ++ [quote_char single]) ++ rest) in *.
  assert (Etx : tx = quote_char single :: flat l ++ quote_char single :: rest) by (unfold tx; cbn [app]; rewrite <- app_assoc; reflexivity).
  destruct (flow_at (wr (full tx) s) single lf (full_ideal _ _) Hlf rest (Hfo rest Hr) l (pos s) Hf (Hc _)) as (m' & E).
  rewrite <- Etx, <- full_at in E.
  destruct (carry 1 (scan_flow_scalar single) _ (tok_post s) s tx (Mk_token (TScalar (den g0 l) (if single then SSingle else SDouble)) (pos s) m') rest (at_ (wr (full tx) s) rest m') (S_flow_scalar Utf8 single) T) as (s' & E' & T' & _).
  - left. destruct (buffer s); [congruence|]. cbn. lia.
  - apply scan_flow_scalar_spec; [destruct T as (i & x & Hs & _); congruence|]. unfold bget. destruct (buffer s); [congruence|discriminate].
  - exact E.
  - reflexivity.
  - exists (Mk_token (TScalar (den g0 l) (if single then SSingle else SDouble)) (pos s) m'), s'. rewrite Hd in *. auto.
Qed.

(** C30 *)
Theorem C30_double_quoted_round_trip : forall c v allow_breaks, scalar_values v -> (1 <= em_indent c)%Z -> em_line_break c <> BrAny ->
  exists sp d c', runs (write_double_quoted_scalar v allow_breaks) c (sp ++ d) (Ok tt) c' /\ (sp = [] \/ sp = [32]) /\
    reads_as (scan_flow_scalar false) d v SDouble (fun _ => True).
Proof.
  intros c v ab Hv Hi Hl. set (w := em_whitespace c). set (x0 := (em_column c + (if negb w then 1 else 0) + 1)%Z).
  destruct (double_text c ab Hi (length v) v false true x0 (em_line c) false (em_indention c && false)) as (ats & x' & y' & w' & i' & R & F & D & C); [lia|exact Hv|rewrite andb_false_r; discriminate|].
  exists (if negb w then [32] else []), (34 :: flat ats ++ [34]). eexists. split; [|split].
  - unfold write_double_quoted_scalar. rewrite (mv_id c) at 1. change (34 :: flat ats ++ [34]) with ([34] ++ flat ats ++ [34]). rewrite app_assoc.
    refine (runs_seq _ _ _ _ _ _ _ _ (r_write_indicator _ [34] true false false _ _ _ _) _). refine (runs_seq _ _ _ _ _ _ _ _ R _).
    rewrite <- (app_nil_r [34]). refine (runs_seq _ _ _ _ _ _ _ _ (r_write_indicator _ [34] false false false _ _ _ _) _). apply r_set_ws.
  - destruct (negb w); auto.
  - apply (flow_carry false (break_chars (em_line_break c)) ats v); [apply lf_ok_of, Hl|exact F| | |discriminate].
    + intros x. apply C; lia.
    + rewrite D; [reflexivity|split; reflexivity|split; [reflexivity|discriminate]].
Qed.

(** C31; what follows must not begin with another quote. *)
Theorem C31_single_quoted_round_trip : forall c v allow_breaks,
  sa_single_quoted_allowed (analyze_scalar (em_unicode c) v) = true -> (1 <= em_indent c)%Z -> em_line_break c <> BrAny ->
  exists sp d c', runs (write_single_quoted_scalar v allow_breaks) c (sp ++ d) (Ok tt) c' /\ (sp = [] \/ sp = [32]) /\
    reads_as (scan_flow_scalar true) d v SSingle (fun rest => hd_error rest <> Some 39).
Proof.
  intros c v ab Ha Hi Hl. apply analysis_single in Ha. destruct Ha as (Hw & Hbs & Hsb). set (w := em_whitespace c). set (x0 := (em_column c + (if negb w then 1 else 0) + 1)%Z).
  destruct (single_text_pieces c ab Hi (em_unicode c) v false false true x0 (em_line c) false (em_indention c && false) Hw Hbs Hsb) as (ats & b & x' & y' & w' & i' & R & B & F & D & C);
    [split; discriminate|discriminate|intros _ _; apply andb_false_r|].
  exists (if negb w then [32] else []), (39 :: flat (ats ++ tl_ c b) ++ [39]).
  assert (R2 : exists x2 y2 w2 i2, runs (when b write_indent) (mv x' y' w' i' c) (flat (tl_ c b)) (Ok tt) (mv x2 y2 w2 i2 c)).
  { destruct b; cbn [when tl_].
    - destruct (B eq_refl) as [-> ->]. rewrite repeat_flat. eexists _, _, _, _. rewrite <- (Z.sub_0_r (em_indent c)) at 1. apply r_write_indent_stay; lia.
    - eexists _, _, _, _. apply runs_ret. }
  destruct R2 as (x2 & y2 & w2 & i2 & R2). eexists. split; [|split].
  - unfold write_single_quoted_scalar. rewrite (mv_id c) at 1. rewrite flat_app. change (39 :: (flat ats ++ flat (tl_ c b)) ++ [39]) with ([39] ++ (flat ats ++ flat (tl_ c b)) ++ [39]). rewrite app_assoc, <- (app_assoc (flat ats)).
    refine (runs_seq _ _ _ _ _ _ _ _ (r_write_indicator _ [39] true false false _ _ _ _) _). refine (runs_bind _ _ _ _ _ _ _ _ _ R _). cbv beta.
    refine (runs_seq _ _ _ _ _ _ _ _ R2 _).
    rewrite <- (app_nil_r [39]). refine (runs_seq _ _ _ _ _ _ _ _ (r_write_indicator _ [39] false false false _ _ _ _) _). apply r_set_ws.
  - destruct (negb w); auto.
  - apply (flow_carry true (break_chars (em_line_break c)) (ats ++ tl_ c b) v); [apply lf_ok_of, Hl|exact F| | |].
    + intros x. apply C; [intros _; lia|lia].
    + rewrite D; [reflexivity|split; reflexivity|reflexivity].
    + intros rest Hr _. destruct rest as [|ch rest]; [reflexivity|]. cbn in Hr |- *. destruct (N.eqb_spec ch 39) as [E|_]; [rewrite E in Hr; destruct (Hr eq_refl)|reflexivity].
Qed.

(** ** Plain scalars *)
(** The scanner has the next four characters in its buffer (or all, if there are less), as after [cache 4]. *)
Definition four_at_hand (s : sst) : Prop := (4 <= length (buffer s))%nat \/ eof s = true.
Lemma at_hand_get s tx : to_come s tx -> four_at_hand s -> forall k, (k < 4)%nat -> bget k s = nth_error tx k.
Proof.
  intros (i & x & Hs & _ & _ & _ & -> & _ & He & _) H k Hk. unfold bget. destruct H as [H|H].
  - rewrite nth_error_app1; [reflexivity|lia].
  - rewrite (He H), app_nil_r. reflexivity.
Qed.
Definition reads_as_plain (flow : bool) (ind : Z) (d v : str) : Prop :=
  forall s q after, to_come s (d ++ q ++ after) -> four_at_hand s ->
  negb (flow_level s =? 0) = flow -> (flow = false -> (indent s < ind)%Z /\ (indent s <= Z.of_N (m_col (pos s)))%Z) ->
  plain_follow flow (indent s + 1) q after ->
  plain_start s = true /\ exists t s', scan_plain_scalar s = (Ok t, s') /\ t_data t = TScalar v SPlain /\ t_start t = pos s /\ to_come s' after.

Lemma chk_nth3 tx x : chk x (nth_error tx 0) && chk x (nth_error tx 1) && chk x (nth_error tx 2) = true -> exists b, tx = x :: x :: x :: b.
Proof.
  destruct tx as [|a [|b [|d tx]]]; cbn; try (rewrite ?andb_false_r; discriminate). intros H. apply andb_true_iff in H. destruct H as [H H3]. apply andb_true_iff in H. destruct H as [H1 H2].
  exists tx. repeat f_equal; lia.
Qed.
Lemma follow_hd flow ind q after x : x = 45 \/ x = 46 -> plain_follow flow ind q after -> forall b, q ++ after <> x :: b.
Proof.
  intros Hx (Hq & Ha & H) b E. assert (x <> 58 /\ ~ In x [44; 91; 93; 123; 125] /\ ~ white x) as (N1 & N2 & N3).
  { split; [lia|]. unfold white, blank, line_break. split; [cbn; lia|lia]. }
  destruct q as [|y q]; cbn [app] in E.
  - destruct H as [H|[(r & H & _)|[(_ & y & r & H & Hi)|[(H & _)|(a & y & r & H & _)]]]].
    + congruence.
    + rewrite H in E. injection E as E _. lia.
    + rewrite H in E. injection E as -> _. contradiction.
    + congruence.
    + destruct a; discriminate.
  - injection E as -> _. inversion Hq as [|? ? Hy _]; subst. apply N3. destruct Hy as [Hy|Hy]; [left; left; exact Hy|right; exact Hy].
Qed.
Lemma pw_marker flow lf l rest x : lf_ok lf -> x = 45 \/ x = 46 -> (forall b, rest <> x :: b) ->
  forall n, match n with O => True | S _ => forall prev b, pw flow prev lf l -> flat l ++ rest = repeat x n ++ b -> exists r, l = map AChar (repeat x n) ++ r end.
Proof.
  intros Hlf Hx Hr n. destruct n as [|n]; [exact I|]. revert l. induction n as [|n IH]; intros l prev b Hp E.
  - destruct l as [|a l]; [cbn in E; destruct (Hr _ E)|]. destruct a as [ch| | | |t c]; cbn [pw] in Hp; try contradiction; rewrite flat_cons in E; cbn [atext app repeat] in E.
    + injection E as -> _. exists l. reflexivity.
    + injection E as E _. lia.
    + exfalso. destruct Hp as [Hb _]. pose proof (brk_hd lf Hlf t c (flat l ++ rest) Hb) as K. rewrite <- app_assoc in E. rewrite E in K. destruct Hx; subst; discriminate K.
  - destruct l as [|a l]; [cbn in E; destruct (Hr _ E)|]. destruct a as [ch| | | |t c]; cbn [pw] in Hp; try contradiction; rewrite flat_cons in E; cbn [atext app repeat] in E.
    + injection E as -> E. destruct Hp as (_ & _ & _ & Hp). destruct (IH l true b Hp) as (r & ->); [exact E|]. exists r. reflexivity.
    + injection E as E _. lia.
    + exfalso. destruct Hp as [Hb _]. pose proof (brk_hd lf Hlf t c (flat l ++ rest) Hb) as K. rewrite <- app_assoc in E. rewrite E in K. destruct Hx; subst; discriminate K.
Qed.

Lemma plain_carry flow u lf l v ind : lf_ok lf -> Spec_Styles.plain_text u flow v -> v <> [] -> pw flow false lf l -> hd_word l -> den g0 l = v -> (1 <= ind)%Z ->
  (forall k z, k <= z -> k <= Z.to_N ind -> cols k z (tl l)) ->
  (is_blankz (hd_error (tl v)) = false -> hd_word (tl l)) -> reads_as_plain flow ind (flat l) v.
Proof.
  intros Hlf Hpt Hv Hp Hh Hd Hi Hc Htl s q after T H4 Hfl Hin Hfo. set (tx := flat l ++ q ++ after) in *.
  pose proof (at_hand_get s tx T H4) as Hget.
  assert (Hdi : forall m, at_document_indicator (at_ (wr (full tx) s) tx m) = false).
  { intros m. destruct (at_document_indicator _) eqn:Ed; [|reflexivity]. exfalso. unfold at_document_indicator in Ed. apply andb_true_iff in Ed. destruct Ed as [Ed _]. apply andb_true_iff in Ed. destruct Ed as [_ Ed].
    destruct Hpt as (_ & _ & _ & _ & _ & Hnm). apply Hnm. rewrite !bget_at in Ed. apply orb_true_iff in Ed.
    assert (K : forall x, x = 45 \/ x = 46 -> chk x (nth_error tx 0) && chk x (nth_error tx 1) && chk x (nth_error tx 2) = true -> exists b, v = [x; x; x] ++ b).
    { intros x Hx E. apply chk_nth3 in E. destruct E as (b & E). destruct (pw_marker flow lf l (q ++ after) x Hlf Hx (follow_hd _ _ _ _ _ Hx Hfo) 3%nat false b Hp E) as (r & ->).
      exists (den g0 r). rewrite <- Hd. reflexivity. }
    destruct Ed as [Ed|Ed]; apply K in Ed; auto; destruct Ed as (b & ->); exists b; auto. }
  assert (Hdis : at_document_indicator s = false).
  { rewrite <- (Hdi (pos s)). unfold at_document_indicator. rewrite !Hget, !bget_at by lia. reflexivity. }
  assert (Hps : plain_start s = true /\ (flow_level s <> 0 -> chk 63 (bget 0 s) = false /\ chk 58 (bget 0 s) = false)).
  { destruct v as [|ch r]; [congruence|]. destruct (pt_first u flow (ch :: r) Hpt ch r eq_refl) as (F1 & (F2 & F3) & F4 & F5 & F6).
    pose proof Hpt as (_ & _ & Hfirst & _). destruct (Hfirst ch r eq_refl) as [_ Hbad]. unfold bad_first in Hbad.
    assert (Htx : nth_error tx 0 = Some ch /\ (~ white_behind r -> is_blankz (nth_error tx 1) = false)).
    { clear -Hd Hh Hp Htl tx. cbn [tl] in Htl. destruct l as [|a l]; [contradiction|]. cbn in Hh. destruct a as [c0| | | |]; try discriminate Hh; cbn [pw] in Hp; try contradiction.
      cbn [den word aval flush_gap g0 g_ld g_ws app] in Hd. injection Hd as -> Hd. split; [reflexivity|]. intros Hr. subst tx. rewrite flat_cons. cbn [atext app]. rewrite hd_nth1.
      destruct Hp as (_ & _ & _ & Hp). cbn [tl] in Htl.
      assert (Hw : hd_word l) by (apply Htl; destruct r as [|x r]; [destruct (Hr Logic.I)|]; cbn [hd_error]; destruct (is_blankz (Some x)) eqn:Eb; [apply white_blankz in Eb; contradiction|reflexivity]).
      destruct l as [|a l]; [contradiction|]. cbn in Hw. destruct a as [c1| | | |]; try discriminate Hw; cbn [pw] in Hp; try contradiction. apply Hp. }
    destruct Htx as [Htx0 Htx1]. unfold plain_start. rewrite !Hget, Htx0 by lia. split.
    - assert (N1 : ~ In ch [35; 44; 91; 93; 123; 125; 38; 42; 33; 124; 62; 39; 34; 37; 64; 96]) by (intros Hi'; apply Hbad; left; exact Hi').
      destruct (N.eqb_spec ch 45) as [-> |E45]; [|destruct (N.eqb_spec ch 63) as [-> |E63]; [|destruct (N.eqb_spec ch 58) as [-> |E58]]].
      + assert (B1 : is_blankz (nth_error tx 1) = false) by (apply Htx1; intros Hw; apply Hbad; right; right; auto). unfold is_blankz in B1. apply orb_false_iff in B1. rewrite (proj1 B1). reflexivity.
      + assert (flow = false) as Ef by (destruct flow; [destruct Hbad; right; left; auto|reflexivity]). rewrite Ef in Hfl. apply negb_false_iff in Hfl. rewrite Hfl.
        rewrite Htx1; [reflexivity|]. intros Hw. apply Hbad. right. left. auto.
      + assert (flow = false) as Ef by (destruct flow; [destruct Hbad; right; left; auto|reflexivity]). rewrite Ef in Hfl. apply negb_false_iff in Hfl. rewrite Hfl.
        rewrite Htx1; [reflexivity|]. intros Hw. apply Hbad. right. left. auto.
      + apply orb_true_iff. left. apply orb_true_iff. left. rewrite F2. cbn [chk]. cbn [In] in N1. clear -N1 E45 E63 E58. lia.
    - intros Hl. assert (flow = true) as Ef by (rewrite <- Hfl; destruct (N.eqb_spec (flow_level s) 0); [contradiction|reflexivity]).
      cbn [chk]. split; [destruct (N.eqb_spec ch 63) as [-> |]|destruct (N.eqb_spec ch 58) as [-> |]]; try reflexivity; destruct Hbad; right; left; auto. }
  split; [apply Hps|].
  set (K := Z.to_N ind).
  destruct (plain_at (wr (full tx) s) flow lf (full_ideal _ _) Hlf Hfl q after l (pos s) (N.min K (m_col (pos s) + 1)) Hfo) as (e & s1 & E & B & F).
  - subst K. lia.
  - intros Hf. destruct (Hin Hf) as [I1 I2]. change (indent (wr (full tx) s)) with (indent s). subst K. lia.
  - exact Hp.
  - exact Hh.
  - apply Hc; subst K; lia.
  - apply Hdi.
  - fold tx in E. rewrite <- full_at in E.
    destruct (carry 0 scan_plain_scalar _ (tok_post s) s tx (Mk_token (TScalar (den g0 l) SPlain) (pos s) e) after s1 (S_plain Utf8) T) as (s' & E' & T' & _).
    + left. lia.
    + apply scan_plain_scalar_spec; [destruct T as (i & x & Hs & _); congruence|].
      split; [exact H4|]. split; [intros _; destruct T as (i & x & _ & _ & He & _); rewrite He; discriminate|]. split; [apply Hps|]. split; [exact Hdis|apply Hps].
    + rewrite E. f_equal. rewrite <- B. apply at_id.
    + exact F.
    + exists (Mk_token (TScalar (den g0 l) SPlain) (pos s) e), s'. rewrite Hd in *. auto.
Qed.

(** C32.  The text is read as one plain scalar, whatever the context (a flow collection or not), when it
    stands where the emitter may put it: the line break it may contain is indented more than the
    enclosing block. *)
Theorem C32_plain_round_trip : forall c v allow_breaks (flow : bool), v <> [] ->
  (if flow then sa_flow_plain_allowed (analyze_scalar (em_unicode c) v) else sa_block_plain_allowed (analyze_scalar (em_unicode c) v)) = true ->
  (1 <= em_indent c)%Z -> em_line_break c <> BrAny ->
  exists sp d c', runs (write_plain_scalar v allow_breaks) c (sp ++ d) (Ok tt) c' /\ (sp = [] \/ sp = [32]) /\ reads_as_plain flow (em_indent c) d v.
Proof.
  intros c v ab flow Hv Ha Hi Hl. apply (analysis_plain _ _ _ Hv) in Ha. destruct v as [|ch r]; [congruence|].
  destruct (pt_first _ _ _ Ha ch r eq_refl) as (F1 & F2 & F4 & F5 & F6).
  set (w := em_whitespace c). set (x0 := (em_column c + (if negb w then 1 else 0))%Z).
  destruct (pieces_plain c ab flow Hi r false (x0 + 1)%Z (em_line c) w false F6 ltac:(reflexivity)) as (ats & x' & y' & w' & i' & R & P & W & D & C).
  exists (if negb w then [32] else []), (flat (AChar ch :: ats)). eexists. split; [|split].
  - unfold write_plain_scalar. rewrite (mv_id c) at 1. apply runs_get; [reflexivity|].
    refine (runs_seq _ _ _ _ (mv x0 (em_line c) w (em_indention c) c) _ _ _ _ _).
    { change (em_whitespace (mv (em_column c) (em_line c) (em_whitespace c) (em_indention c) c)) with (em_whitespace c). clear R D C P W. subst x0 w. destruct (em_whitespace c); cbn [negb andb when is_empty orb]; [rewrite Z.add_0_r; apply runs_ret|]. apply r_put. }
    rewrite <- (app_nil_r (flat (AChar ch :: ats))). refine (runs_seq _ _ _ _ _ _ _ _ _ (r_set_ws _ _ _ _ _ _ _)).
    cbn [plain_loop]. replace (ch =? 32) with false by (clear -F1; lia).
    assert (Ebr : is_break_c ch = false) by (destruct F2 as [Pb _]; unfold is_blankz, is_breakz in Pb; cbn [is_break] in Pb; apply orb_false_iff in Pb; destruct Pb as [_ Pb]; apply orb_false_iff in Pb; tauto).
    rewrite Ebr, flat_cons. change (atext (AChar ch) ++ flat ats) with ([] ++ [ch] ++ flat ats). refine (runs_seq _ _ _ _ _ _ _ _ (runs_ret tt _) _).
    refine (runs_seq _ _ _ _ _ _ _ _ (r_write_char _ _ _ _ _ _) _). refine (runs_seq _ _ _ [] _ _ _ _ (r_set_indention _ _ _ _ _ _) R).
  - destruct (negb w); auto.
  - apply (plain_carry flow (em_unicode c) (break_chars (em_line_break c)) (AChar ch :: ats) (ch :: r) (em_indent c)).
    + apply lf_ok_of, Hl.
    + exact Ha.
    + exact Hv.
    + cbn [pw]. split; [exact F2|]. split; [intros E; apply W, F4, E|]. split; [intros E; contradiction|exact P].
    + reflexivity.
    + cbn [den word aval flush_gap g0 g_ld g_ws app]. rewrite D; [reflexivity|split; reflexivity|reflexivity|discriminate].
    + exact Hi.
    + exact C.
    + exact W.
Qed.

(** ** Literal block scalars *)
(** [ind]: the indentation of the lines of the scalar; [best]: the indentation width, which the emitter
    writes as a hint when the value begins with white space. *)
Definition reads_as_literal (ind best : Z) (d v : str) : Prop :=
  forall s q sp after, to_come s (d ++ q ++ sp ++ after) -> buffer s <> [] -> literal_follow ind v q sp after ->
  (indent s < ind)%Z -> ((exists x b, v = x :: b /\ white x) -> ind = if (indent s <? 0)%Z then best else (indent s + best)%Z) ->
  exists t s', scan_block_scalar true s = (Ok t, s') /\ t_data t = TScalar v SLiteral /\ t_start t = pos s /\ to_come s' after.

Lemma spaces_sps sp : Forall space sp -> sp = sps (length sp).
Proof. induction 1 as [|x sp Hx _ IH]; [reflexivity|]. cbn [length sps repeat]. rewrite IH at 1. unfold space in Hx. subst x. reflexivity. Qed.
Lemma ends_ends v : ends v = true <-> ends_line v.
Proof.
  unfold ends. split.
  - intros H. destruct (rev v) as [|x r] eqn:E; [discriminate|]. apply (f_equal (@rev char)) in E. rewrite rev_involutive in E. exists (rev r), x. split; [exact E|]. apply break_c_line, H.
  - intros (a & x & -> & Hx). rewrite rev_app_distr. cbn. apply break_c_line, Hx.
Qed.
(** C33 *)
Theorem C33_literal_round_trip : forall c v, sa_block_allowed (analyze_scalar (em_unicode c) v) = true ->
  (1 <= em_indent c)%Z -> (1 <= em_best_indent c <= 9)%Z -> em_line_break c <> BrAny ->
  exists sp d c', runs (write_literal_scalar v) c (sp ++ d) (Ok tt) c' /\ (sp = [] \/ sp = [32]) /\
    reads_as_literal (em_indent c) (em_best_indent c) d v.
Proof.
  intros c v Ha Hi Hb Hl. apply analysis_block in Ha. destruct Ha as [Hbt Hv]. destruct (literal_written c v Hi Hb) as (c' & R).
  eexists _, _, c'. split; [exact R|]. split; [destruct (negb _); auto|]. clear R c'.
  intros s q sp after T Hbuf (F1 & F2 & F3 & F4 & F5) Hin Hhint. rewrite (spaces_sps sp F3) in T.
  match type of T with to_come _ (?d ++ _) => set (d0 := d) in * end. set (tx := d0 ++ q ++ sps (length sp) ++ after) in *.
  destruct (literal_at (wr (full tx) s) (break_chars (em_line_break c)) (full_ideal _ _) (lf_ok_of _ Hl) (Z.to_nat (em_indent c)) (Z.to_N (em_best_indent c)) v q after (length sp)) with (m := pos s) as (e & s1 & E & B & F).
  - clear -Hi. lia.
  - clear -F4 Hi. lia.
  - eapply Forall_impl; [|exact F1]. intros x. apply break_c_line.
  - exact F5.
  - exact Hv.
  - apply (block_lchar _ _ Hbt).
  - clear -Hb. lia.
  - intros H. apply F2, ends_ends, H.
  - intros H Hq. apply F2, ends_ends in Hq. congruence.
  - change (indent (wr (full tx) s)) with (indent s). destruct (hinted v) eqn:Eh.
    + rewrite Z2Nat.id, Z2N.id by (clear -Hi Hb; lia). rewrite Hhint; [clear; destruct (Z.ltb_spec (indent s) 0), (Z.leb_spec 0 (indent s)); lia|].
      clear -Eh. unfold hinted in Eh. destruct v as [|x b]; [discriminate|]. exists x, b. split; [reflexivity|]. cbn in Eh. apply orb_true_iff in Eh. destruct Eh as [Eh|Eh]; [left; left; clear -Eh; lia|right; apply break_c_line, Eh].
    + rewrite Z2Nat.id by (clear -Hi; lia). exact Hin.
  - assert (Etx : tx = 124 :: hint_text v (Z.to_N (em_best_indent c)) ++ chomp_text (chomp_of v) ++ break_chars (em_line_break c) ++ ltext (break_chars (em_line_break c)) (Z.to_nat (em_indent c)) true v ++ q ++ sps (length sp) ++ after)
      by (unfold tx, d0; cbn [app]; rewrite <- !app_assoc; reflexivity).
    rewrite <- Etx, <- full_at in E.
    destruct (carry 1 (scan_block_scalar true) _ (tok_post s) s tx (Mk_token (TScalar v SLiteral) (pos s) e) after s1 (S_block_scalar Utf8 true) T) as (s' & E' & T' & _).
    + left. destruct (buffer s); [congruence|]. cbn. lia.
    + apply scan_block_scalar_spec; [destruct T as (i & x & Hs & _); congruence|]. unfold bget. destruct (buffer s); [congruence|discriminate].
    + rewrite E. f_equal. rewrite <- B. apply at_id.
    + exact F.
    + exists (Mk_token (TScalar v SLiteral) (pos s) e), s'. auto.
Qed.

(** ** Folded block scalars.  [folds] (Spec_Folded.v): no line break is put or left out in the wrong
    place by write_folded_scalar. *)
Definition reads_as_folded (ind best : Z) (d v : str) : Prop :=
  forall s q sp after, to_come s (d ++ q ++ sp ++ after) -> buffer s <> [] -> literal_follow ind v q sp after ->
  (indent s < ind)%Z -> ((exists x b, v = x :: b /\ white x) -> ind = if (indent s <? 0)%Z then best else (indent s + best)%Z) ->
  exists t s', scan_block_scalar false s = (Ok t, s') /\ t_data t = TScalar v SFolded /\ t_start t = pos s /\ to_come s' after.
(** The condition on the width, for a line whose first inner space before a character that is not one
    comes after [n] characters. *)
Definition within (c : est) (n : nat) : Prop := (em_indent c + Z.of_nat n <= em_best_width c)%Z.
(** C51: every value the emitter writes as a folded scalar is read as some value [v'], which is
    the value written if, and only if, its lines fold. *)
Theorem C51_folded_round_trip_exact : forall c v, sa_block_allowed (analyze_scalar (em_unicode c) v) = true ->
  (1 <= em_indent c)%Z -> (1 <= em_best_indent c <= 9)%Z -> em_line_break c <> BrAny ->
  exists sp d c' v', runs (write_folded_scalar v) c (sp ++ d) (Ok tt) c' /\ (sp = [] \/ sp = [32]) /\
    reads_as_folded (em_indent c) (em_best_indent c) d v' /\ (v' = v <-> folds (within c) v).
Proof.
  intros c v Ha Hi Hb Hl. apply analysis_block in Ha. destruct Ha as [Hbt Hv].
  pose proof (block_lchar _ _ Hbt) as Hlv. pose proof (block_tidy _ _ Hbt) as Hty.
  destruct (folded_written_any c _ v (em_column c) (em_line c) (em_whitespace c) (em_indention c) Hv Hbt Hi Hb) as (x' & y' & k & R & _). rewrite <- mv_id in R.
  destruct (folded_facts (em_indent c) (em_best_width c) v Hv Hlv Hty) as (Hp & Hlp & Hh & _ & He & He2). pose proof (folds_exactly (em_indent c) (em_best_width c) v Hlv Hty) as Hex.
  set (p := folded (em_indent c) (em_best_width c) true true 0 v) in *. set (v' := read_back false p) in *.
  assert (Hh2 : hinted v' = hinted p) by (unfold hinted, v'; rewrite read_hd; reflexivity).
  eexists _, _, _, v'. split; [exact R|]. split; [destruct (negb _); auto|]. split; [|symmetry; exact Hex]. clear R Hex. rewrite <- He in He2. clear He Hh.
  intros s q sp after T Hbuf (F1 & F2 & F3 & F4 & F5) Hin Hhint. rewrite (spaces_sps sp F3) in T.
  match type of T with to_come _ (?d ++ _) => set (d0 := d) in * end. set (tx := d0 ++ q ++ sps (length sp) ++ after) in *.
  destruct (block_at_state (wr (full tx) s) (break_chars (em_line_break c)) (full_ideal _ _) (lf_ok_of _ Hl) false (Z.to_nat (em_indent c)) (Z.to_N (em_best_indent c)) p q after (length sp)) with (m := pos s) as (e & m1 & E).
  - clear -Hi. lia.
  - clear -F4 Hi. lia.
  - eapply Forall_impl; [|exact F1]. intros x. apply break_c_line.
  - exact F5.
  - exact Hp.
  - exact Hlp.
  - clear -Hb. lia.
  - rewrite <- He2. intros H. apply F2, ends_ends, H.
  - rewrite <- He2. intros H Hq. apply F2, ends_ends in Hq. congruence.
  - change (indent (wr (full tx) s)) with (indent s). rewrite <- Hh2. destruct (hinted v') eqn:Eh.
    + rewrite Z2Nat.id, Z2N.id by (clear -Hi Hb; lia). rewrite Hhint; [clear; destruct (Z.ltb_spec (indent s) 0), (Z.leb_spec 0 (indent s)); lia|].
      clear -Eh. unfold hinted in Eh. destruct v' as [|x b]; [discriminate|]. exists x, b. split; [reflexivity|]. cbn in Eh. apply orb_true_iff in Eh. destruct Eh as [Eh|Eh]; [left; left; clear -Eh; lia|right; apply break_c_line, Eh].
    + rewrite Z2Nat.id by (clear -Hi; lia). exact Hin.
  - assert (Etx : tx = block_char false :: hint_text p (Z.to_N (em_best_indent c)) ++ chomp_text (chomp_of p) ++ break_chars (em_line_break c) ++ ltext (break_chars (em_line_break c)) (Z.to_nat (em_indent c)) true p ++ q ++ sps (length sp) ++ after)
      by (unfold tx, d0; cbn [app]; rewrite <- !app_assoc; reflexivity).
    fold v' in E. rewrite <- Etx, <- full_at in E.
    destruct (carry 1 (scan_block_scalar false) _ (tok_post s) s tx (Mk_token (TScalar v' SFolded) (pos s) e) after (at_ (wr (full tx) s) after m1) (S_block_scalar Utf8 false) T) as (s' & E' & T' & _).
    + left. destruct (buffer s); [congruence|]. cbn. lia.
    + apply scan_block_scalar_spec; [destruct T as (i & x & Hs & _); congruence|]. unfold bget. destruct (buffer s); [congruence|discriminate].
    + exact E.
    + apply full_ideal.
    + exists (Mk_token (TScalar v' SFolded) (pos s) e), s'. auto.
Qed.

(** C34.  Missing: the strings whose lines do not fold; for them it is false (C51_folded_round_trip_exact). *)
Theorem C34_folded_round_trip_partial : forall c v, sa_block_allowed (analyze_scalar (em_unicode c) v) = true ->
  (1 <= em_indent c)%Z -> (1 <= em_best_indent c <= 9)%Z -> em_line_break c <> BrAny -> folds (within c) v ->
  exists sp d c', runs (write_folded_scalar v) c (sp ++ d) (Ok tt) c' /\ (sp = [] \/ sp = [32]) /\
    reads_as_folded (em_indent c) (em_best_indent c) d v.
Proof.
  intros c v Ha Hi Hb Hl Hf. destruct (C51_folded_round_trip_exact c v Ha Hi Hb Hl) as (sp & d & c' & v' & R & Hs & Hr & He). apply He in Hf. subst v'. exists sp, d, c'. auto.
Qed.

(** A value that is folded over four lines, on an emitter of width 12, indentation 4, CR LF line breaks. *)
Definition rt_state : est := set_em_line_break BrCrLn (set_em_indent 4 (set_em_best_width 12 (started Utf8 demo_settings []))).
Definition rt_value : str := lit "a ""quoted"" text" ++ [9; 8232] ++ lit "and more   of it ".
Definition rt_double : str := lit """a \""quoted\""" ++ [13; 10] ++ lit "    text\t\Land" ++ [13; 10] ++ lit "    more   of" ++ [13; 10] ++ lit "    it """.
Definition rt_single_value : str := lit "it's a" ++ [10; 10] ++ lit "text".
Definition rt_single : str := lit "'it''s a" ++ [13; 10; 13; 10; 13; 10] ++ lit "    text'".
Example rt_double_written : scalar_values rt_value /\ (1 <= em_indent rt_state)%Z /\ em_line_break rt_state <> BrAny /\
  em_buffer (snd (write_double_quoted_scalar rt_value true rt_state)) = em_buffer rt_state ++ rt_double.
Proof. split; [repeat constructor|]. split; [vm_compute; discriminate|]. split; [discriminate|]. vm_compute. reflexivity. Qed.
Example rt_single_written : sa_single_quoted_allowed (analyze_scalar (em_unicode rt_state) rt_single_value) = true /\
  em_buffer (snd (write_single_quoted_scalar rt_single_value true rt_state)) = em_buffer rt_state ++ rt_single.
Proof. split; vm_compute; reflexivity. Qed.
(** A scanner that has the folded text to come, in two chunks cut inside a line break, with an interruption. *)
Definition rt_source : source := Mk_source (firstn 14 rt_double) [SIntr; SData (skipn 14 rt_double)].
Definition rt_scanner : sst := snd (cache 1 (set_enc Utf8 (scanner_on true rt_source))).
Example rt_to_come : to_come rt_scanner (rt_double ++ []) /\ buffer rt_scanner <> [] /\
  option_map t_data (match fst (scan_flow_scalar false rt_scanner) with Ok t => Some t | _ => None end) = Some (TScalar rt_value SDouble).
Proof.
  split; [|split; [vm_compute; discriminate|vm_compute; reflexivity]].
  exists (match src rt_scanner with Some i => i | None => rt_source end), (skipn (length (buffer rt_scanner)) rt_double).
  split; [vm_compute; reflexivity|]. split; [repeat constructor; vm_compute; discriminate|]. split; [vm_compute; reflexivity|].
  split; [let l := eval vm_compute in (rt_double ++ []) in change (Forall yaml_char l); repeat apply Forall_cons; try apply Forall_nil; unfold yaml_char; lia|]. split; [vm_compute; reflexivity|].
  split; [apply utf8_text_encode; split; [repeat constructor|vm_compute; reflexivity]|]. split; [vm_compute; discriminate|vm_compute; reflexivity].
Qed.
(** A plain scalar over two lines, in a block mapping, followed by the next key. *)
Definition rt_plain_value : str := lit "some plain text:x y#z".
Definition rt_plain : str := lit "some plain text:x" ++ [13; 10] ++ lit "    y#z".
Definition rt_plain_scanner : sst :=
  set_pos (Mk_mark 5 0 5) (set_indent 0 (snd (cache 4 (set_enc Utf8 (scanner_on true (Mk_source rt_plain [SIntr; SData [13; 10; 107; 58; 32; 118]])))))).
Example rt_plain_written : sa_block_plain_allowed (analyze_scalar (em_unicode rt_state) rt_plain_value) = true /\
  em_buffer (snd (write_plain_scalar rt_plain_value true rt_state)) = em_buffer rt_state ++ rt_plain.
Proof. split; vm_compute; reflexivity. Qed.
Example rt_plain_to_come : to_come rt_plain_scanner (rt_plain ++ [13; 10] ++ lit "k: v") /\ four_at_hand rt_plain_scanner /\
  (indent rt_plain_scanner < em_indent rt_state)%Z /\ plain_follow false (indent rt_plain_scanner + 1) [13; 10] (lit "k: v").
Proof.
  split; [|split; [left; vm_compute; lia|split; [vm_compute; reflexivity|]]].
  - exists (match src rt_plain_scanner with Some i => i | None => rt_source end), (skipn (length (buffer rt_plain_scanner)) (rt_plain ++ [13; 10] ++ lit "k: v")).
    split; [vm_compute; reflexivity|]. split; [repeat constructor; vm_compute; discriminate|]. split; [vm_compute; reflexivity|].
    split; [let l := eval vm_compute in (rt_plain ++ [13; 10] ++ lit "k: v") in change (Forall yaml_char l); repeat apply Forall_cons; try apply Forall_nil; unfold yaml_char; lia|]. split; [vm_compute; reflexivity|].
    split; [apply utf8_text_encode; split; [repeat constructor|vm_compute; reflexivity]|]. split; [vm_compute; discriminate|vm_compute; reflexivity].
  - split; [repeat constructor; right; unfold line_break; auto|]. split; [intros x b [= <- _]; unfold white, blank, line_break; lia|].
    right. right. right. right. exists [13], 10, []. split; [reflexivity|]. split; [left; reflexivity|]. split; [constructor|]. left. split; [reflexivity|vm_compute; reflexivity].
Qed.
(** A literal scalar that begins and ends with white space, in a block mapping, followed by the next key. *)
Definition rt_literal_state : est := set_em_unicode true rt_state.
Definition rt_literal_value : str := [32] ++ lit "two" ++ [10; 10] ++ lit "# lines" ++ [8232; 10].
Definition rt_literal : str := lit "|2+" ++ [13; 10] ++ lit "     two" ++ [13; 10; 13; 10] ++ lit "    # lines" ++ [8232; 13; 10].
Definition rt_literal_scanner : sst :=
  set_indent 2 (snd (cache 1 (set_enc Utf8 (scanner_on true (Mk_source (firstn 17 (encode_utf8 rt_literal)) [SIntr; SData (skipn 17 (encode_utf8 rt_literal) ++ lit "  k: v")]))))).
Example rt_literal_written : sa_block_allowed (analyze_scalar (em_unicode rt_literal_state) rt_literal_value) = true /\ em_best_indent rt_literal_state = 2%Z /\
  em_buffer (snd (write_literal_scalar rt_literal_value rt_literal_state)) = em_buffer rt_literal_state ++ rt_literal.
Proof. repeat split; vm_compute; reflexivity. Qed.
Example rt_literal_to_come : to_come rt_literal_scanner (rt_literal ++ [] ++ lit "  " ++ lit "k: v") /\ buffer rt_literal_scanner <> [] /\
  em_indent rt_literal_state = (indent rt_literal_scanner + em_best_indent rt_literal_state)%Z /\ literal_follow (em_indent rt_literal_state) rt_literal_value [] (lit "  ") (lit "k: v") /\
  option_map t_data (match fst (scan_block_scalar true rt_literal_scanner) with Ok t => Some t | _ => None end) = Some (TScalar rt_literal_value SLiteral).
Proof.
  split; [|split; [vm_compute; discriminate|split; [vm_compute; reflexivity|split; [|vm_compute; reflexivity]]]].
  - exists (match src rt_literal_scanner with Some i => i | None => rt_source end), (skipn (length (buffer rt_literal_scanner)) (rt_literal ++ [] ++ lit "  " ++ lit "k: v")).
    split; [vm_compute; reflexivity|]. split; [repeat constructor; vm_compute; discriminate|]. split; [vm_compute; reflexivity|].
    split; [let l := eval vm_compute in (rt_literal ++ [] ++ lit "  " ++ lit "k: v") in change (Forall yaml_char l); repeat apply Forall_cons; try apply Forall_nil; unfold yaml_char; lia|]. split; [vm_compute; reflexivity|].
    split; [apply utf8_text_encode; split; [repeat constructor|vm_compute; reflexivity]|]. split; [vm_compute; discriminate|vm_compute; reflexivity].
  - split; [constructor|]. split; [split; [intros _|reflexivity]; exists (removelast rt_literal_value), 10; split; [reflexivity|left; reflexivity]|]. split; [repeat constructor|]. split; [vm_compute; reflexivity|].
    intros x b [= <- _]; unfold white, blank, line_break; lia.
Qed.

(** A value with a line break first, lines that are broken at spaces, a line break that is doubled, one
    that is not, and an indented line, on the emitter of width 12. *)
Definition rt_folded_value : str := [10] ++ lit "a folded text" ++ [10] ++ lit "that goes on" ++ [10; 10] ++ lit "  ab cd" ++ [10] ++ lit "end" ++ [10].
Definition rt_folded : str := lit ">2" ++ [13; 10; 13; 10] ++ lit "    a folded text" ++ [13; 10; 13; 10] ++ lit "    that goes" ++ [13; 10] ++ lit "    on" ++ [13; 10; 13; 10] ++
  lit "      ab cd" ++ [13; 10] ++ lit "    end" ++ [13; 10].
Definition rt_folded_scanner : sst :=
  set_indent 2 (snd (cache 1 (set_enc Utf8 (scanner_on true (Mk_source (firstn 17 (encode_utf8 rt_folded)) [SIntr; SData (skipn 17 (encode_utf8 rt_folded) ++ lit "  k: v")]))))).
Example rt_folded_written : sa_block_allowed (analyze_scalar (em_unicode rt_literal_state) rt_folded_value) = true /\ em_best_indent rt_literal_state = 2%Z /\
  folds (within rt_literal_state) rt_folded_value /\
  em_buffer (snd (write_folded_scalar rt_folded_value rt_literal_state)) = em_buffer rt_literal_state ++ rt_folded.
Proof.
  split; [vm_compute; reflexivity|]. split; [vm_compute; reflexivity|]. split; [|vm_compute; reflexivity].
  apply (folds_tested (em_indent rt_literal_state) (em_best_width rt_literal_state)). vm_compute. reflexivity.
Qed.
Example rt_folded_to_come : to_come rt_folded_scanner (rt_folded ++ [] ++ lit "  " ++ lit "k: v") /\ buffer rt_folded_scanner <> [] /\
  em_indent rt_literal_state = (indent rt_folded_scanner + em_best_indent rt_literal_state)%Z /\ literal_follow (em_indent rt_literal_state) rt_folded_value [] (lit "  ") (lit "k: v") /\
  option_map t_data (match fst (scan_block_scalar false rt_folded_scanner) with Ok t => Some t | _ => None end) = Some (TScalar rt_folded_value SFolded).
Proof.
  split; [|split; [vm_compute; discriminate|split; [vm_compute; reflexivity|split; [|vm_compute; reflexivity]]]].
  - exists (match src rt_folded_scanner with Some i => i | None => rt_source end), (skipn (length (buffer rt_folded_scanner)) (rt_folded ++ [] ++ lit "  " ++ lit "k: v")).
    split; [vm_compute; reflexivity|]. split; [repeat constructor; vm_compute; discriminate|]. split; [vm_compute; reflexivity|].
    split; [let l := eval vm_compute in (rt_folded ++ [] ++ lit "  " ++ lit "k: v") in change (Forall yaml_char l); repeat apply Forall_cons; try apply Forall_nil; unfold yaml_char; lia|]. split; [vm_compute; reflexivity|].
    split; [apply utf8_text_encode; split; [repeat constructor|vm_compute; reflexivity]|]. split; [vm_compute; discriminate|vm_compute; reflexivity].
  - split; [constructor|]. split; [split; [intros _|reflexivity]; exists (removelast rt_folded_value), 10; split; [reflexivity|left; reflexivity]|]. split; [repeat constructor|]. split; [vm_compute; reflexivity|].
    intros x b [= <- _]; unfold white, blank, line_break; lia.
Qed.
Print Assumptions C30_double_quoted_round_trip.
Print Assumptions C31_single_quoted_round_trip.
Print Assumptions C32_plain_round_trip.
Print Assumptions C33_literal_round_trip.
Print Assumptions C51_folded_round_trip_exact.
Print Assumptions C34_folded_round_trip_partial.
