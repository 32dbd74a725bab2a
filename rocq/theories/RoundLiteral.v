(** RoundLiteral.v -- reading literal and folded block scalars: the scanner on a text made of given lines. *)
From Coq Require Import Lia ZifyBool ZifyNat ZifyN Bool.
From Verif Require Import Base Utf Chars State Reader Scanner Spec_Styles Spec_RoundTrip EmitScalar EmitSingle RoundScan RoundPlain.
Open Scope N_scope.

(** The text of the lines of [l], when lines are indented by [n] and a line feed is written [lf];
    [b]: at the beginning of a line. *)
Definition btext (lf : str) (ch : char) : str := if ch =? 10 then lf else [ch].
Fixpoint ltext (lf : str) (n : nat) (b : bool) (l : str) : str :=
  match l with
  | [] => []
  | ch :: r => if is_break_c ch then btext lf ch ++ ltext lf n true r
               else (if b then sps n else []) ++ ch :: ltext lf n false r
  end.
Definition bchar (ch : char) : Prop := ch = 10 \/ ch = 8232 \/ ch = 8233.
Definition lchar (ch : char) : Prop := (is_break_c ch = true -> bchar ch) /\ ch <> 9.
Definition brtext (lf : str) (bs : str) : str := flat_map (btext lf) bs.
Lemma bchar_brk lf ch : bchar ch -> brk lf (btext lf ch) ch.
Proof. intros [-> |[-> | ->]]; [left; auto|right; cbn; auto|right; cbn; auto]. Qed.
Lemma bchar_break ch : bchar ch -> is_break_c ch = true. Proof. intros [-> |[-> | ->]]; reflexivity. Qed.
Lemma ltext_breaks lf n bs l b : Forall bchar bs -> bs <> [] -> ltext lf n b (bs ++ l) = brtext lf bs ++ ltext lf n true l.
Proof.
  intros H Hne. revert b. induction H as [|ch bs Hc H IH]; intros b; [congruence|]. cbn [app ltext brtext flat_map]. rewrite (bchar_break _ Hc), <- app_assoc. f_equal.
  destruct bs as [|c2 bs]; [reflexivity|]. apply IH. discriminate.
Qed.
Lemma ltext_line lf n ln l : forallb (fun ch => negb (is_break_c ch)) ln = true -> ltext lf n false (ln ++ l) = ln ++ ltext lf n false l.
Proof. induction ln as [|ch ln IH]; [reflexivity|]. cbn. intros H. apply andb_true_iff in H. destruct H as [H1 H2]. apply negb_true_iff in H1. rewrite H1, IH by exact H2. reflexivity. Qed.

(** What the scanner makes of the lines: line breaks [b :: tb] between a line, [lk] telling whether
    it starts with a blank, and one that starts with [ch]. *)
Definition gap_text (lit lk : bool) (lb tb : str) (ch : option char) : str :=
  (if negb lit && starts_with cLF lb && negb lk && negb (is_blank ch) then (if is_empty tb then [cSP] else []) else lb) ++ tb.
(** [bs]: line breaks that were read, [lk]: the line before them starts with a blank. *)
Fixpoint joined (lit lk : bool) (bs : str) (l : str) : str :=
  match l with
  | [] => bs
  | ch :: r => if is_break_c ch then joined lit lk (bs ++ [ch]) r
               else match bs with
                    | [] => ch :: joined lit lk [] r
                    | b :: tb => gap_text lit lk [b] tb (Some ch) ++ ch :: joined lit (is_blank (Some ch)) [] r
                    end
  end.
Definition line_of (lit : bool) (l : str) : str := match l with ch :: r => ch :: joined lit (is_blank (Some ch)) [] r | [] => [] end.
Definition read_back (lit : bool) (p : str) : str := let '(bs, l) := span is_break_c p in bs ++ line_of lit l.
Lemma joined_lit lk l : forall bs, joined true lk bs l = bs ++ l.
Proof.
  revert lk. induction l as [|ch r IH]; intros lk bs; cbn [joined]; [symmetry; apply app_nil_r|]. destruct (is_break_c ch).
  - rewrite IH, <- app_assoc. reflexivity.
  - destruct bs as [|b tb]; [rewrite IH; reflexivity|]. unfold gap_text. cbn [negb andb app]. rewrite IH. reflexivity.
Qed.
Lemma read_back_lit p : read_back true p = p.
Proof.
  unfold read_back. pose proof (span_app is_break_c p) as E. destruct (span is_break_c p) as [bs l]. cbn [fst snd] in E. rewrite E. f_equal. destruct l; cbn [line_of]; [reflexivity|]. rewrite joined_lit. reflexivity.
Qed.
Lemma joined_line lit lk ln l : forallb (fun ch => negb (is_break_c ch)) ln = true -> joined lit lk [] (ln ++ l) = ln ++ joined lit lk [] l.
Proof. induction ln as [|ch ln IH]; [reflexivity|]. cbn [forallb app joined]. intros H. apply andb_true_iff in H. destruct H as [H1 H2]. apply negb_true_iff in H1. rewrite H1, IH by exact H2. reflexivity. Qed.
Lemma joined_breaks lit lk b l : forallb is_break_c b = true -> forall bs, joined lit lk bs (b ++ l) = joined lit lk (bs ++ b) l.
Proof. induction b as [|ch b IH]; intros H bs; cbn [app joined]; [rewrite app_nil_r; reflexivity|]. cbn [forallb] in H. apply andb_true_iff in H. destruct H as [H1 H2]. rewrite H1, IH by exact H2. rewrite <- app_assoc. reflexivity. Qed.
Lemma joined_next lit lk b tb c r : is_break_c c = false -> joined lit lk (b :: tb) (c :: r) = gap_text lit lk [b] tb (Some c) ++ line_of lit (c :: r).
Proof. intros H. cbn [joined line_of]. rewrite H. reflexivity. Qed.

Section scan.
Variables (s : sst) (lf : str).
Hypothesis Hid : ideal s.
Hypothesis Hlf : lf_ok lf.
Notation at_ := (at_ s).
Notation c_at := (c_at s Hid).
Notation read_at := (read_at s).
Notation skip_at := (skip_at s).
Lemma bget_at' i tx m : bget i (at_ tx m) = nth_error tx i. Proof. reflexivity. Qed.

(** Skipping spaces, reading the rest of a line. *)
Lemma spaces_at (cond : sst -> bool) t : forall k m,
  (forall j t' m', (j < k)%nat -> m_col m' = m_col m + N.of_nat j -> cond (at_ (32 :: t') m') = true) ->
  (forall m', m_col m' = m_col m + N.of_nat k -> cond (at_ t m') = false) ->
  exists m', skip_while cond (at_ (sps k ++ t) m) = (Ok tt, at_ t m') /\ m_col m' = m_col m + N.of_nat k.
Proof.
  intros k m H1 H2. unfold skip_while. match goal with |- context [loop ?b _ _] => set (body := b) end.
  enough (H : exists m', lr body tt (at_ (sps k ++ t) m) tt (at_ t m') /\ m_col m' = m_col m + N.of_nat k).
  { destruct H as (m' & L & C). exists m'. split; [apply lr_loop, L|exact C]. }
  revert m H1 H2. induction k as [|k IH]; intros m H1 H2.
  - exists m. split; [|lia]. apply lr_stop. subst body. cbv beta. rewrite bgt. cbn [sps repeat app]. rewrite H2 by lia. reflexivity.
  - destruct (IH (advance (len_utf8 32) m)) as (m' & L & C).
    + intros j t' m' Hj Hm. apply (H1 (S j)); [lia|]. cbn [advance m_col] in Hm. lia.
    + intros m' Hm. apply H2. cbn [advance m_col] in Hm. lia.
    + exists m'. split; [|cbn [advance m_col] in C; lia]. refine (lr_go _ _ _ _ _ _ _ _ _ L); [|apply meas_lt; unfold sps; cbn [repeat app length]; apply Nat.lt_succ_diag_r]. subst body. cbv beta. rewrite bgt. cbn [sps repeat app].
      rewrite (H1 O) by lia. rewrite (bok _ _ _ _ _ (skip_at _ _ _)), (bok _ _ _ _ _ (c_at _ _ _)). reflexivity.
Qed.
Lemma line_at t : is_breakz (hd_error t) = true -> forall ln x m, forallb (fun ch => negb (is_break_c ch)) ln = true ->
  exists m', read_while (fun s => negb (is_breakz (bget 0 s))) x (at_ (ln ++ t) m) = (Ok (x ++ ln), at_ t m').
Proof.
  intros Ht ln x m H. unfold read_while. match goal with |- context [loop ?b _ _] => set (body := b) end.
  enough (K : exists m', lr body x (at_ (ln ++ t) m) (x ++ ln) (at_ t m')) by (destruct K as (m' & L); exists m'; apply lr_loop, L).
  revert x m. induction ln as [|ch ln IH]; intros x m.
  - exists m. rewrite app_nil_r. apply lr_stop. subst body. cbv beta. rewrite bgt, bget_at'. cbn [app]. rewrite hd_nth, Ht. reflexivity.
  - cbn in H. apply andb_true_iff in H. destruct H as [H1 H2]. apply negb_true_iff in H1. destruct (IH H2 (x ++ [ch]) (advance (len_utf8 ch) m)) as (m' & L). exists m'. rewrite <- app_assoc in L.
    refine (lr_go _ _ _ _ _ _ _ _ _ L); [|shorter]. subst body. cbv beta. rewrite bgt, bget_at'. cbn [app nth_error]. unfold is_breakz at 1. cbn [is_z is_break orb]. rewrite H1. cbn [negb].
    rewrite (bok _ _ _ _ _ (read_at _ _ _ _)), (bok _ _ _ _ _ (c_at _ _ _)). reflexivity.
Qed.
(** After a line break: [k] spaces, then a text [t] that is not white; or [ind] spaces and the next line. *)
Definition stop_line (ind : Z) (k : nat) (t : str) : Prop :=
  (Z.of_nat k < ind)%Z /\ (forall x b, t = x :: b -> ~ white x) \/
  (Z.of_nat k = ind)%Z /\ exists x b, t = x :: b /\ is_break_c x = false.
Definition scan_breaks_body (ind : Z) (start_mark : mark) : Z * str * mark -> M sst (Z * str * mark + Z * str * mark) := (fun '(max_indent, breaks, end_mark) =>
    cache 1 ;;
    skip_while (fun s => ((ind =? 0)%Z || (bcol s <? ind)%Z) && is_space (bget 0 s)) ;;
    s <- get ;;
    let max_indent := if (max_indent <? bcol s)%Z then bcol s else max_indent in
    if ((ind =? 0)%Z || (bcol s <? ind)%Z) && is_tab (bget 0 s) then
      scan_error "while scanning a block scalar" start_mark
                 "found a tab character where an indentation space is expected"
    else if negb (is_break (bget 0 s)) then ret (inr (max_indent, breaks, end_mark))
    else
      cache 2 ;;
      breaks <- read_line_break breaks ;;
      end_mark <- gets pos ;;
      ret (inl (max_indent, breaks, end_mark))).
Lemma bcol_at t m : bcol (at_ t m) = Z.of_N (m_col m). Proof. reflexivity. Qed.
Lemma stop_at ind sm k t mi br em m : (1 <= ind)%Z -> stop_line ind k t -> m_col m = 0 ->
  exists m' mi', scan_breaks_body ind sm (mi, br, em) (at_ (sps k ++ t) m) = (Ok (inr (mi', br, em)), at_ t m') /\ m_col m' = N.of_nat k.
Proof.
  intros Hi Hs Hm. destruct (spaces_at (fun s => ((ind =? 0)%Z || (bcol s <? ind)%Z) && is_space (bget 0 s)) t k m) as (m' & E & C).
  - intros j t' m' Hj Hm'. rewrite bcol_at. change (is_space (bget 0 (at_ (32 :: t') m'))) with true. rewrite andb_true_r. assert (Z.of_N (m_col m') < ind)%Z; [|lia]. destruct Hs as [[Hs _]|[Hs _]]; lia.
  - intros m' Hm'. rewrite bcol_at, bget_at', hd_nth. destruct Hs as [[Hs Hw]|[Hs _]]; [|replace (ind =? 0)%Z with false by lia; replace (Z.of_N (m_col m') <? ind)%Z with false by lia; reflexivity].
    apply andb_false_iff. right. apply not_white_gap in Hw. destruct Hw as [Hw _]. unfold is_blank in Hw. apply orb_false_iff in Hw. apply Hw.
  - exists m'. eexists. split; [|lia]. unfold scan_breaks_body. rewrite (bok _ _ _ _ _ (c_at _ _ _)), (bok _ _ _ _ _ E), bgt. cbv zeta. rewrite bcol_at, bget_at', hd_nth.
    destruct Hs as [[Hs Hw]|[Hs (x & b & -> & Hx)]].
    + apply not_white_gap in Hw. destruct Hw as [Hw1 Hw2]. unfold is_blank in Hw1. apply orb_false_iff in Hw1. destruct Hw1 as [_ Hw1]. rewrite Hw1, Hw2, andb_false_r. reflexivity.
    + cbn [hd_error is_break]. rewrite Hx. replace (ind =? 0)%Z with false by lia. replace (Z.of_N (m_col m') <? ind)%Z with false by lia. reflexivity.
Qed.
Lemma break_go ind sm mi br em ch t m br' m' : is_break_c ch = true -> m_col m = 0 -> read_line_break br (at_ (ch :: t) m) = (Ok br', m') ->
  exists mi' em', scan_breaks_body ind sm (mi, br, em) (at_ (ch :: t) m) = (Ok (inl (mi', br', em')), m').
Proof.
  intros Hc Hm E. destruct (spaces_at (fun s => ((ind =? 0)%Z || (bcol s <? ind)%Z) && is_space (bget 0 s)) (ch :: t) 0 m) as (m1 & E1 & C1).
  - intros j t' m1 Hj. lia.
  - intros m1 _. rewrite bget_at'. cbn [nth_error is_space chk]. apply andb_false_iff. right. unfold is_space. cbn [chk]. unfold is_break_c in Hc. lia.
  - cbn [sps repeat app] in E1. assert (m1 = m) as ->.
    { unfold skip_while, loop in E1. cbn [loopM] in E1. assert (Ec : (fun s => ((ind =? 0)%Z || (bcol s <? ind)%Z) && is_space (bget 0 s)) (at_ (ch :: t) m) = false).
      { cbv beta. rewrite bget_at'. cbn [nth_error]. apply andb_false_iff. right. unfold is_space. cbn [chk]. unfold is_break_c in Hc. lia. }
      cbv beta in Ec. unfold bind, get in E1. rewrite Ec in E1. apply (f_equal (fun p => pos (snd p))) in E1. exact (eq_sym E1). }
    eexists. eexists. unfold scan_breaks_body. rewrite (bok _ _ _ _ _ (c_at _ _ _)), (bok _ _ _ _ _ E1), bgt. cbv zeta.
    replace (is_tab (bget 0 (at_ (ch :: t) m))) with false by (symmetry; rewrite bget_at'; cbn [nth_error]; unfold is_tab; cbn [chk]; unfold is_break_c in Hc; lia). rewrite andb_false_r.
    rewrite bget_at'. cbn [nth_error is_break]. rewrite Hc. cbn [negb]. rewrite (bok _ _ _ _ _ (c_at _ _ _)), (bok _ _ _ _ _ E). reflexivity.
Qed.
Lemma no_lf_next' bs t : match hd_error t with Some 10 => lf <> [13] | _ => True end -> Forall bchar bs -> match brtext lf bs ++ t with 10 :: _ => lf <> [13] | _ => True end.
Proof.
  intros Ht H. destruct H as [|ch bs Hc _]; cbn [brtext flat_map app].
  - destruct t as [|x t]; [exact I|exact Ht].
  - unfold btext. destruct Hc as [-> |[-> | ->]]; cbn; try exact I. destruct Hlf as [-> |[-> | ->]]; cbn; try exact I. discriminate.
Qed.
(** Line breaks of the value. *)
Lemma breaks_at ind sm k t : (1 <= ind)%Z -> stop_line ind k t -> forall bs mi br em m, Forall bchar bs -> m_col m = 0 ->
  exists m' mi' em', lr (scan_breaks_body ind sm) (mi, br, em) (at_ (brtext lf bs ++ sps k ++ t) m) (mi', br ++ bs, em') (at_ t m') /\ m_col m' = N.of_nat k.
Proof.
  intros Hi Hs. assert (Hlf' : match hd_error (sps k ++ t) with Some 10 => lf <> [13] | _ => True end).
  { destruct k as [|k]; cbn [sps repeat app]; [|exact I]. destruct t as [|x t]; [exact I|]. cbn [hd_error]. destruct Hs as [[_ Hw]|[Hs _]]; [|lia]. specialize (Hw x t eq_refl).
    destruct (N.eqb_spec x 10) as [-> |Hx]; [destruct Hw; right; left; reflexivity|]. repeat match goal with |- match ?d with _ => _ end => destruct d; try exact I end; congruence. }
  induction bs as [|ch bs IH]; intros mi br em m Hb Hm.
  - cbn [brtext flat_map app]. destruct (stop_at ind sm k t mi br em m Hi Hs Hm) as (m' & mi' & E & C). exists m', mi', em. rewrite app_nil_r. split; [apply lr_stop, E|exact C].
  - inversion Hb as [|? ? Hc Hb']; subst. cbn [brtext flat_map]. rewrite <- app_assoc. set (rest := flat_map (btext lf) bs ++ sps k ++ t) in *.
    destruct (rlb_at s lf Hlf (btext lf ch) ch rest m br (bchar_brk lf ch Hc) (no_lf_next' bs _ Hlf' Hb')) as (n & E).
    assert (exists d t', btext lf ch = d :: t' /\ is_break_c d = true) as (d & t' & Et & Hd).
    { unfold btext. destruct Hc as [-> |[-> | ->]]; [|eexists _, _; split; reflexivity|eexists _, _; split; reflexivity]. destruct Hlf as [-> |[-> | ->]]; eexists _, _; split; reflexivity. }
    rewrite Et in *. cbn [app] in *. destruct (break_go ind sm mi br em d (t' ++ rest) m _ _ Hd Hm E) as (mi1 & em1 & E1).
    destruct (IH mi1 (br ++ [ch]) em1 (next_line n m) Hb' eq_refl) as (m' & mi' & em' & L & C). exists m', mi', em'. split; [|exact C]. rewrite <- app_assoc in L.
    refine (lr_go _ _ _ _ _ _ _ E1 _ L). apply meas_lt. subst rest. cbn [length]. rewrite !app_length. lia.
Qed.
(** Any line breaks. *)
Lemma rawbreak q ch after br m : is_break_c ch = true -> Forall (fun x => is_break_c x = true) q -> is_break (hd_error after) = false ->
  exists q2 n br', read_line_break br (at_ ((ch :: q) ++ after) m) = (Ok br', at_ (q2 ++ after) (next_line n m)) /\ Forall (fun x => is_break_c x = true) q2 /\ (length q2 <= length q)%nat.
Proof.
  intros Hc Hq Ha. unfold read_line_break. change (buffer (at_ ((ch :: q) ++ after) m)) with (ch :: q ++ after). cbv iota.
  destruct ((ch =? 13) && chk 10 (nth_error (q ++ after) 0)) eqn:E2.
  - apply andb_true_iff in E2. destruct E2 as [E1 E2].
    destruct q as [|d q2]; cbn [app] in E2.
    + exfalso. destruct after as [|d after]; [discriminate|]. cbn in E2, Ha. assert (d = 10) as -> by lia. discriminate Ha.
    + exists q2, 2. eexists. split; [reflexivity|]. split; [inversion Hq; assumption|cbn; lia].
  - rewrite Hc. exists q, (len_utf8 ch). eexists. split; [reflexivity|]. split; [exact Hq|lia].
Qed.
Lemma rawbreaks_at ind sm k t : (1 <= ind)%Z -> stop_line ind k t -> forall n q mi br em m, (length q < n)%nat -> Forall (fun x => is_break_c x = true) q -> m_col m = 0 ->
  exists m' mi' br' em', lr (scan_breaks_body ind sm) (mi, br, em) (at_ (q ++ sps k ++ t) m) (mi', br', em') (at_ t m') /\ m_col m' = N.of_nat k.
Proof.
  intros Hi Hs. assert (Ha : is_break (hd_error (sps k ++ t)) = false).
  { destruct k as [|k]; cbn [sps repeat app]; [|reflexivity]. destruct Hs as [[_ Hw]|[Hs _]]; [|lia]. apply not_white_gap in Hw. apply Hw. }
  induction n as [|n IH]; intros q mi br em m Hn Hq Hm; [lia|]. destruct q as [|ch q].
  - cbn [app]. destruct (stop_at ind sm k t mi br em m Hi Hs Hm) as (m' & mi' & E & C). exists m', mi', br, em. split; [apply lr_stop, E|exact C].
  - inversion Hq as [|? ? Hc Hq']; subst. destruct (rawbreak q ch (sps k ++ t) br m Hc Hq' Ha) as (q2 & w & br' & E & Q2 & L2). cbn [app] in *.
    destruct (break_go ind sm mi br em ch (q ++ sps k ++ t) m _ _ Hc Hm E) as (mi1 & em1 & E1). cbn [length] in Hn.
    destruct (IH q2 mi1 br' em1 (next_line w m) ltac:(lia) Q2 eq_refl) as (m' & mi' & br2 & em' & L & C). exists m', mi', br2, em'. split; [|exact C].
    refine (lr_go _ _ _ _ _ _ _ E1 _ L). shorter.
Qed.

Lemma sbb_unfold ind br sm em s0 mi br' em' s1 : (1 <= ind)%Z -> lr (scan_breaks_body ind sm) (0%Z, br, pos s0) s0 (mi, br', em') s1 ->
  scan_block_scalar_breaks ind br sm em s0 = (Ok (ind, br', em'), s1).
Proof.
  intros Hi L. unfold scan_block_scalar_breaks. rewrite (bok (gets pos) _ s0 (pos s0) s0 eq_refl).
  match goal with |- context [loop ?b] => change b with (scan_breaks_body ind sm) end. rewrite (bok _ _ _ _ _ (lr_loop _ _ _ _ _ L)). cbv beta iota. rewrite bgt. cbv zeta.
  replace (ind =? 0)%Z with false by lia. reflexivity.
Qed.
Lemma sbb_at ind sm em k t bs m : (1 <= ind)%Z -> stop_line ind k t -> Forall bchar bs -> m_col m = 0 ->
  exists m' em', scan_block_scalar_breaks ind [] sm em (at_ (brtext lf bs ++ sps k ++ t) m) = (Ok (ind, bs, em'), at_ t m') /\ m_col m' = N.of_nat k.
Proof.
  intros Hi Hs Hb Hm. destruct (breaks_at ind sm k t Hi Hs bs 0%Z [] (pos (at_ (brtext lf bs ++ sps k ++ t) m)) m Hb Hm) as (m' & mi' & em' & L & C). exists m', em'. split; [|exact C]. exact (sbb_unfold _ _ _ _ _ _ _ _ _ Hi L).
Qed.
Lemma sbb_raw ind sm em k t q m : (1 <= ind)%Z -> stop_line ind k t -> Forall (fun x => is_break_c x = true) q -> m_col m = 0 ->
  exists m' br' em', scan_block_scalar_breaks ind [] sm em (at_ (q ++ sps k ++ t) m) = (Ok (ind, br', em'), at_ t m') /\ m_col m' = N.of_nat k.
Proof.
  intros Hi Hs Hb Hm. destruct (rawbreaks_at ind sm k t Hi Hs (S (length q)) q 0%Z [] (pos (at_ (q ++ sps k ++ t) m)) m ltac:(lia) Hb Hm) as (m' & mi' & br' & em' & L & C). exists m', br', em'. split; [|exact C]. exact (sbb_unfold _ _ _ _ _ _ _ _ _ Hi L).
Qed.
Lemma sbb_auto sm em k x t m : (1 <= k)%nat -> (indent s < Z.of_nat k)%Z -> ~ white x -> m_col m = 0 ->
  exists m' em', scan_block_scalar_breaks 0 [] sm em (at_ (sps k ++ x :: t) m) = (Ok (Z.of_nat k, [], em'), at_ (x :: t) m') /\ m_col m' = N.of_nat k.
Proof.
  intros Hk Hin Hx Hm. assert (Hg : not_gap (x :: t)) by (apply not_white_gap; intros y b [= <- _]; exact Hx). destruct Hg as [Hg1 Hg2]. cbn [hd_error] in Hg1, Hg2. unfold is_blank in Hg1. apply orb_false_iff in Hg1. destruct Hg1 as [Hg0 Hg1].
  destruct (spaces_at (fun s => ((0 =? 0)%Z || (bcol s <? 0)%Z) && is_space (bget 0 s)) (x :: t) k m) as (m' & E & C).
  - intros j t' m' Hj Hm'. reflexivity.
  - intros m' Hm'. cbn [Z.eqb orb andb]. exact Hg0.
  - exists m'. eexists. split; [|lia]. unfold scan_block_scalar_breaks. rewrite (bok (gets pos) _ (at_ (sps k ++ x :: t) m) m _ eq_refl).
    match goal with |- context [loop ?b] => change b with (scan_breaks_body 0 sm) end.
    assert (L : lr (scan_breaks_body 0 sm) (0%Z, [], m) (at_ (sps k ++ x :: t) m) (Z.of_N (m_col m'), [], m) (at_ (x :: t) m')).
    { apply lr_stop. unfold scan_breaks_body. rewrite (bok _ _ _ _ _ (c_at _ _ _)), (bok _ _ _ _ _ E), bgt. cbv zeta. rewrite bcol_at, bget_at'. cbn [nth_error]. rewrite Hg1, Hg2, andb_false_r. cbn [negb].
      replace (0 <? Z.of_N (m_col m'))%Z with true by lia. reflexivity. }
    rewrite (bok _ _ _ _ _ (lr_loop _ _ _ _ _ L)). cbv beta iota. rewrite bgt. cbv zeta. change (indent (at_ (x :: t) m')) with (indent s). change (0 =? 0)%Z with true. cbv iota.
    replace (Z.of_N (m_col m') <? indent s + 1)%Z with false by lia. replace (Z.of_N (m_col m') <? 1)%Z with false by lia. rewrite C, Hm. replace (Z.of_N (0 + N.of_nat k)) with (Z.of_nat k) by lia. reflexivity.
Qed.

(** ** The lines *)
Definition ends (l : str) : bool := is_break (hd_error (rev l)).
Lemma ends_app a b : b <> [] -> ends (a ++ b) = ends b.
Proof. intros H. unfold ends. rewrite rev_app_distr. destruct (rev b) eqn:E; [|reflexivity]. apply (f_equal (@rev char)) in E. rewrite rev_involutive in E. cbn in E. congruence. Qed.
Definition lines_body (lit : bool) (start_mark : mark) : str * str * str * bool * Z * mark -> M sst (str * str * str * bool * Z * mark + str * str * str * bool * Z * mark) :=
    (fun '(string, leading_break, trailing_breaks, leading_blank, ind, end_mark) =>
       s <- get ;;
       if negb (bcol s =? ind)%Z || is_z (bget 0 s) then
         ret (inr (string, leading_break, trailing_breaks, leading_blank, ind, end_mark))
       else
         let trailing_blank := is_blank (bget 0 s) in
         let string :=
           if negb lit && starts_with cLF leading_break && negb leading_blank && negb trailing_blank
           then (if is_empty trailing_breaks then string ++ [cSP] else string)
           else string ++ leading_break in
         let string := string ++ trailing_breaks in
         let leading_blank := is_blank (bget 0 s) in
         string <- read_while (fun s => negb (is_breakz (bget 0 s))) string ;;
         cache 2 ;;
         leading_break <- read_line_break [] ;;
         '(ind, trailing_breaks, end_mark) <- scan_block_scalar_breaks ind [] start_mark end_mark ;;
         ret (inl (string, leading_break, trailing_breaks, leading_blank, ind, end_mark))).
Section lines.
Variables (lit : bool) (sm : mark) (n : nat) (q after : str) (k : nat).
Hypothesis Hn : (1 <= n)%nat.
Hypothesis Hk : (k < n)%nat.
Hypothesis Hq : Forall (fun x => is_break_c x = true) q.
Hypothesis Haf : forall x b, after = x :: b -> ~ white x.
Notation ind := (Z.of_nat n).
Notation rest := (q ++ sps k ++ after).
Lemma stop_after : stop_line ind k after. Proof. left. split; [lia|exact Haf]. Qed.
Lemma after_no_lf : match hd_error (sps k ++ after) with Some 10 => lf <> [13] | _ => True end.
Proof.
  clear Hk. destruct k as [|k']; cbn [sps repeat app]; [|exact I]. destruct after as [|x t]; [exact I|]. cbn [hd_error]. specialize (Haf x t eq_refl).
  destruct (N.eqb_spec x 10) as [-> |Hx]; [destruct Haf; right; left; reflexivity|]. repeat match goal with |- match ?d with _ => _ end => destruct d; try exact I end; congruence.
Qed.
Lemma stopped x lb tb lk em m : m_col m = N.of_nat k -> lines_body lit sm (x, lb, tb, lk, ind, em) (at_ after m) = (Ok (inr (x, lb, tb, lk, ind, em)), at_ after m).
Proof. intros C. unfold lines_body. rewrite bgt, bcol_at. replace (Z.of_N (m_col m) =? ind)%Z with false by lia. reflexivity. Qed.
Lemma lines_at : forall N l x lb tb lk em m, (length l < N)%nat -> l <> [] -> is_break (hd_error l) = false -> Forall lchar l -> m_col m = N.of_nat n ->
  (ends l = true -> q = []) -> (ends l = false -> q <> []) ->
  exists u t st lb' tb' lk' em' m', lr (lines_body lit sm) (x, lb, tb, lk, ind, em) (at_ (ltext lf n false l ++ rest) m) (st, lb', tb', lk', ind, em') (at_ after m') /\
    (exists u0, l = u0 ++ t /\ u0 <> [] /\ ends u0 = false) /\ line_of lit l = u ++ t /\ u <> [] /\ ends u = false /\ Forall bchar t /\ st = x ++ gap_text lit lk lb tb (hd_error l) ++ u /\ (t = [] \/ exists b, t = b :: tb' /\ lb' = [b]).
Proof.
  induction N as [|N IH]; intros l x lb tb lk em m HN Hne Hhd Hl Hm He1 He2; [lia|].
  pose proof (span_app (fun ch => negb (is_break_c ch)) l) as El. pose proof (span_all (fun ch => negb (is_break_c ch)) l) as Hw. pose proof (span_hd (fun ch => negb (is_break_c ch)) l) as Hh.
  assert (Hln : fst (span (fun ch => negb (is_break_c ch)) l) <> []) by (destruct l as [|a l]; [congruence|]; cbn in Hhd; cbn [span]; rewrite Hhd; cbn [negb]; destruct (span _ l); discriminate).
  destruct (span _ l) as [ln r]. cbn [fst snd] in *. subst l.
  assert (Hls : ends ln = false).
  { unfold ends. destruct (rev ln) as [|ch rl] eqn:Er; [reflexivity|]. cbn. rewrite forallb_forall in Hw. specialize (Hw ch). apply negb_true_iff, Hw. apply in_rev. rewrite Er. left. reflexivity. }
  rewrite ltext_line, <- app_assoc by exact Hw.
  set (g := gap_text lit lk lb tb (hd_error ln)). assert (Hg : forall r0, gap_text lit lk lb tb (hd_error (ln ++ r0)) = g) by (intros r0; unfold g; destruct ln; [congruence|reflexivity]).
  set (lk1 := is_blank (hd_error ln)). assert (Hlo : forall r0, line_of lit (ln ++ r0) = ln ++ joined lit lk1 [] r0).
  { intros r0. unfold lk1. destruct ln as [|c0 ln0]; [congruence|]. cbn [app line_of hd_error]. cbn [forallb] in Hw. apply andb_true_iff in Hw. rewrite joined_line by apply Hw. reflexivity. }
  assert (B : forall T (P : str -> str -> sst -> Prop), is_breakz (hd_error T) = true ->
    (forall mx emx, exists br tb2 em2 s2 s3, read_line_break [] (at_ T mx) = (Ok br, s2) /\ scan_block_scalar_breaks ind [] sm emx s2 = (Ok (ind, tb2, em2), s3) /\ P br tb2 s3) ->
    exists br tb2 em2 s3, lines_body lit sm (x, lb, tb, lk, ind, em) (at_ (ln ++ T) m) = (Ok (inl (x ++ g ++ ln, br, tb2, lk1, ind, em2)), s3) /\ P br tb2 s3).
  { intros T P HT E1. destruct (line_at T HT ln (x ++ g) m Hw) as (m1' & E0). destruct (E1 m1' em) as (br & tb2 & em2 & s2 & s3 & E2 & E3 & HP).
    exists br, tb2, em2, s3. split; [|exact HP]. unfold lines_body. rewrite bgt, bcol_at. replace (Z.of_N (m_col m) =? ind)%Z with true by lia. cbn [negb orb].
    replace (is_z (bget 0 (at_ (ln ++ T) m))) with false by (destruct ln; [congruence|reflexivity]). cbv zeta. assert (Eh : bget 0 (at_ (ln ++ T) m) = hd_error ln) by (destruct ln; [congruence|reflexivity]). rewrite Eh. fold lk1.
    replace ((if negb lit && starts_with cLF lb && negb lk && negb lk1 then if is_empty tb then x ++ [cSP] else x else x ++ lb) ++ tb) with (x ++ g) by (unfold g, gap_text; fold lk1; destruct (negb lit && _ && _ && _); [destruct (is_empty tb)|]; rewrite <- ?app_assoc; reflexivity).
    rewrite (bok _ _ _ _ _ E0), (bok _ _ _ _ _ (c_at _ _ _)), (bok _ _ _ _ _ E2), (bok _ _ _ _ _ E3). rewrite <- !app_assoc. reflexivity. }
  destruct r as [|b r].
  - (* the last line, without a line break *)
    rewrite app_nil_r in *. cbn [ltext app].
    assert (Hqne : q <> []) by (apply He2, Hls).
    destruct (B rest (fun br tb2 s3 => exists m3, s3 = at_ after m3 /\ m_col m3 = N.of_nat k)) as (br & tb2 & em2 & s3 & E & m3 & -> & C3).
    + destruct q as [|c0 q0]; [congruence|]. inversion Hq as [|? ? H0 _]; subst. cbn [app hd_error]. unfold is_breakz. cbn [is_break]. rewrite H0, orb_true_r. reflexivity.
    + intros mx emx. destruct q as [|c0 q0]; [congruence|]. inversion Hq as [|? ? H0 Hq0]; subst.
      destruct (rawbreak q0 c0 (sps k ++ after) [] mx H0 Hq0) as (q2 & w & br' & E & Q2 & _).
      { generalize after_no_lf, stop_after. intros _ _. clear -Haf. destruct k; cbn [sps repeat app]; [|reflexivity]. apply not_white_gap in Haf. apply Haf. }
      destruct (sbb_raw ind sm emx k after q2 (next_line w mx) ltac:(lia) stop_after Q2 eq_refl) as (m' & br2 & em' & E2 & C2).
      exists br', br2, em', (at_ (q2 ++ sps k ++ after) (next_line w mx)), (at_ after m'). split; [exact E|]. split; [exact E2|]. eauto.
    + exists ln, [], (x ++ g ++ ln), br, tb2, lk1, em2, m3. split.
      * refine (lr_go _ _ _ _ _ _ _ E _ (lr_stop _ _ _ _ _ (stopped _ _ _ _ _ _ C3))). apply meas_lt. rewrite !app_length. clear -Hln. destruct ln; [congruence|]. cbn [length]. lia.
      * split; [exists ln; rewrite app_nil_r; auto|]. split; [rewrite <- (app_nil_r ln) at 1; apply Hlo|]. split; [exact Hln|]. split; [exact Hls|]. split; [constructor|]. split; [reflexivity|left; reflexivity].
  - (* a line break *)
    apply Forall_app in Hl. destruct Hl as [_ Hl]. apply negb_false_iff in Hh.
    pose proof (span_app is_break_c (b :: r)) as El. pose proof (span_all is_break_c (b :: r)) as Hbs. pose proof (span_hd is_break_c (b :: r)) as Hh2.
    assert (Hb0 : exists bs0, fst (span is_break_c (b :: r)) = b :: bs0) by (cbn [span]; rewrite Hh; destruct (span _ r); eexists; reflexivity).
    destruct (span is_break_c (b :: r)) as [bs l2]. cbn [fst snd] in *. destruct Hb0 as [bs0 ->]. rewrite El in *. clear El Hh. rename bs0 into bs.
    apply Forall_app in Hl. destruct Hl as [Hl1 Hl2].
    assert (Hbc : Forall bchar (b :: bs)).
    { rewrite forallb_forall in Hbs. rewrite Forall_forall in *. intros y Hy. destruct (Hl1 y Hy) as [Hy1 _]. apply Hy1, Hbs, Hy. }
    rewrite (ltext_breaks lf n (b :: bs) l2 false Hbc ltac:(discriminate)). inversion Hbc as [|? ? Hb1 Hb2]; subst. cbn [brtext flat_map].
    assert (Hbz : forall T, is_breakz (hd_error (btext lf b ++ T)) = true).
    { intros T. pose proof (brk_hd lf Hlf _ _ T (bchar_brk lf b Hb1)) as K. unfold btext in *. destruct Hb1 as [-> |[-> | ->]]; try reflexivity. destruct Hlf as [-> |[-> | ->]]; reflexivity. }
    destruct l2 as [|c2 l2].
    + (* the end *)
      cbn [ltext app]. rewrite !app_nil_r in *. assert (q = []) as ->.
      { apply He1. rewrite ends_app by discriminate. unfold ends. destruct (rev (b :: bs)) as [|ch rl] eqn:Er; [apply (f_equal (@length char)) in Er; rewrite rev_length in Er; discriminate|]. cbn.
        rewrite forallb_forall in Hbs. apply Hbs, in_rev. rewrite Er. left. reflexivity. }
      cbn [app]. rewrite <- app_assoc. destruct (B (btext lf b ++ brtext lf bs ++ sps k ++ after) (fun br tb2 s3 => br = [b] /\ tb2 = bs /\ exists m3, s3 = at_ after m3 /\ m_col m3 = N.of_nat k)) as (br & tb2 & em2 & s3 & E & -> & -> & m3 & -> & C3).
      * apply Hbz.
      * intros mx emx. destruct (rlb_at s lf Hlf (btext lf b) b (brtext lf bs ++ sps k ++ after) mx [] (bchar_brk lf b Hb1) (no_lf_next' bs _ after_no_lf Hb2)) as (w & E).
        destruct (sbb_at ind sm emx k after bs (next_line w mx) ltac:(lia) stop_after Hb2 eq_refl) as (m' & em' & E2 & C2).
        eexists _, _, _, _, _. split; [exact E|]. split; [exact E2|]. split; [reflexivity|]. split; [reflexivity|]. eauto.
      * exists ln, (b :: bs), (x ++ g ++ ln), [b], bs, lk1, em2, m3. split.
        -- refine (lr_go _ _ _ _ _ _ _ E _ (lr_stop _ _ _ _ _ (stopped _ _ _ _ _ _ C3))). apply meas_lt. rewrite !app_length. clear -Hln. destruct ln; [congruence|]. cbn [length]. lia.
        -- split; [exists ln; auto|]. split; [rewrite Hlo; f_equal; pose proof (joined_breaks lit lk1 (b :: bs) [] Hbs []) as K; rewrite app_nil_r in K; exact K|]. split; [exact Hln|]. split; [exact Hls|]. split; [exact Hbc|]. split; [rewrite Hg; reflexivity|]. right. eauto.
    + (* another line *)
      assert (E2 : ltext lf n true (c2 :: l2) = sps n ++ ltext lf n false (c2 :: l2)) by (cbn [ltext]; rewrite Hh2; reflexivity).
      rewrite E2, <- !app_assoc. set (T2 := ltext lf n false (c2 :: l2) ++ rest).
      assert (Hs2 : stop_line ind n T2) by (right; split; [reflexivity|]; subst T2; cbn [ltext]; rewrite Hh2; cbn [app]; eexists _, _; split; [reflexivity|exact Hh2]).
      destruct (B (btext lf b ++ brtext lf bs ++ sps n ++ T2) (fun br tb2 s3 => br = [b] /\ tb2 = bs /\ exists m3, s3 = at_ T2 m3 /\ m_col m3 = N.of_nat n)) as (br & tb2 & em2 & s3 & E & -> & -> & m3 & -> & C3).
      * apply Hbz.
      * intros mx emx. destruct (rlb_at s lf Hlf (btext lf b) b (brtext lf bs ++ sps n ++ T2) mx [] (bchar_brk lf b Hb1)) as (w & E).
        { apply (no_lf_next' bs); [|exact Hb2]. destruct n; [lia|exact I]. }
        destruct (sbb_at ind sm emx n T2 bs (next_line w mx) ltac:(lia) Hs2 Hb2 eq_refl) as (m' & em' & E3 & C2).
        eexists _, _, _, _, _. split; [exact E|]. split; [exact E3|]. split; [reflexivity|]. split; [reflexivity|]. eauto.
      * assert (Hen : ends (ln ++ (b :: bs) ++ c2 :: l2) = ends (c2 :: l2)) by (rewrite app_assoc; apply ends_app; discriminate).
        destruct (IH (c2 :: l2) (x ++ g ++ ln) [b] bs lk1 em2 m3) as (u & t & st & lb' & tb' & lk2 & em' & m' & L & (u0 & Eu0 & Hu0 & Hue0) & Eu & Hu & Hue & Ht & Est & Hlast).
        -- rewrite !app_length in HN. cbn [length] in *. lia.
        -- discriminate.
        -- exact Hh2.
        -- exact Hl2.
        -- exact C3.
        -- rewrite <- Hen. exact He1.
        -- rewrite <- Hen. exact He2.
        -- exists (ln ++ gap_text lit lk1 [b] bs (Some c2) ++ u), t, st, lb', tb', lk2, em', m'. split.
           ++ refine (lr_go _ _ _ _ _ _ _ E _ L). apply meas_lt. rewrite !app_length. clear -Hln. destruct ln; [congruence|]. cbn [length]. lia.
           ++ split; [exists (ln ++ (b :: bs) ++ u0); rewrite Eu0, <- !app_assoc; split; [reflexivity|]; split; [destruct ln; discriminate|]; rewrite app_assoc, ends_app by exact Hu0; exact Hue0|].
              split; [rewrite Hlo; rewrite (joined_breaks lit lk1 (b :: bs) (c2 :: l2) Hbs []); cbn [app]; rewrite (joined_next lit lk1 b bs c2 l2 Hh2), Eu, <- !app_assoc; reflexivity|].
              split; [destruct ln; [congruence|discriminate]|]. split; [rewrite app_assoc, ends_app by exact Hu; exact Hue|]. split; [exact Ht|]. split; [|exact Hlast].
              rewrite Est, Hg, <- !app_assoc. reflexivity.
Qed.
End lines.

(** ** The whole scalar *)
Definition hinted (v : str) : bool := is_space (hd_error v) || is_break (hd_error v).
Definition chomp_of (v : str) : Z := match rev v with [] => -1 | ch :: r => if negb (is_break_c ch) then -1 else if is_breakz (hd_error r) then 1 else 0 end%Z.
Definition chomp_text (z : Z) : str := if (z =? -1)%Z then [45] else if (z =? 1)%Z then [43] else [].
Definition hint_text (v : str) (d : N) : str := if hinted v then [48 + d] else [].
Lemma rev_breaks t : Forall bchar t -> Forall bchar (rev t). Proof. intros H. apply Forall_rev, H. Qed.
Lemma chomp_split w t : w <> [] -> ends w = false -> Forall bchar t -> chomp_of (w ++ t) = match t with [] => -1 | [_] => 0 | _ => 1 end%Z.
Proof.
  intros Hw He Ht. unfold chomp_of. rewrite rev_app_distr. unfold ends in He. destruct (rev w) as [|c0 rw] eqn:Erw; [apply (f_equal (@rev char)) in Erw; rewrite rev_involutive in Erw; cbn in Erw; congruence|]. cbn [hd_error is_break] in He.
  destruct t as [|b t]; [cbn; rewrite He; reflexivity|]. destruct t as [|b2 t].
  - inversion Ht as [|? ? Hb _]; subst. cbn. rewrite (bchar_break _ Hb). cbn. unfold is_breakz. cbn. rewrite He. reflexivity.
  - apply rev_breaks in Ht. destruct (rev (b :: b2 :: t)) as [|x [|y z]] eqn:Er; try (apply (f_equal (@length char)) in Er; rewrite rev_length in Er; discriminate).
    inversion Ht as [|? ? H1 H2]; subst. inversion H2 as [|? ? H3 _]; subst. cbn. rewrite (bchar_break _ H1). cbn. unfold is_breakz. cbn. rewrite (bchar_break _ H3). reflexivity.
Qed.
Lemma chomp_breaks v : v <> [] -> Forall bchar v -> chomp_of v = 1%Z.
Proof.
  intros Hv H. unfold chomp_of. apply rev_breaks in H. destruct (rev v) as [|x r] eqn:Er; [apply (f_equal (@rev char)) in Er; rewrite rev_involutive in Er; cbn in Er; congruence|].
  inversion H as [|? ? H1 H2]; subst. rewrite (bchar_break _ H1). cbn. destruct H2 as [|y r H3 _]; [reflexivity|]. cbn. unfold is_breakz. cbn. rewrite (bchar_break _ H3). reflexivity.
Qed.
Lemma lf_hd T : exists x b, lf ++ T = x :: b /\ (x = 10 \/ x = 13).
Proof. destruct Hlf as [-> |[-> | ->]]; eexists _, _; split; reflexivity || auto. Qed.
Lemma slb_at T m : match T with 10 :: _ => lf <> [13] | _ => True end -> exists w, skip_line_break (at_ (lf ++ T) m) = (Ok tt, at_ T (next_line w m)).
Proof.
  intros H. destruct Hlf as [-> |[-> | ->]]; [eexists; reflexivity| |eexists; reflexivity].
  destruct T as [|d T]; [eexists; reflexivity|]. exists 1. unfold skip_line_break. change (buffer (at_ ([13] ++ d :: T) m)) with (13 :: d :: T). cbv iota.
  cbn [nth_error chk]. destruct (N.eqb_spec d 10) as [-> |]; [congruence|reflexivity].
Qed.
Lemma header_at sm v d T m : 1 <= d <= 9 ->
  exists m', scan_block_header sm (at_ (hint_text v d ++ chomp_text (chomp_of v) ++ lf ++ T) m) = (Ok (chomp_of v, if hinted v then Z.of_N d else 0%Z), at_ (lf ++ T) m').
Proof.
  intros Hd. destruct (lf_hd T) as (x & b & E & Hx). rewrite E. clear E.
  assert (Hx1 : is_digit (Some x) = false /\ chk 43 (Some x) = false /\ chk 45 (Some x) = false) by (destruct Hx; subst; repeat split). destruct Hx1 as (X1 & X2 & X3).
  assert (Hd1 : is_digit (Some (48 + d)) = true /\ chk 43 (Some (48 + d)) = false /\ chk 45 (Some (48 + d)) = false /\ chk 48 (Some (48 + d)) = false /\ as_digit (Some (48 + d)) = Some d).
  { assert (is_digit_c (48 + d) = true) by (unfold is_digit_c, in_range; lia). cbn [is_digit chk as_digit]. rewrite H. repeat split; try lia. f_equal. lia. }
  destruct Hd1 as (D1 & D2 & D3 & D4 & D5).
  assert (Hc : chomp_of v = (-1)%Z \/ chomp_of v = 1%Z \/ chomp_of v = 0%Z) by (unfold chomp_of; destruct (rev v); [auto|]; destruct (negb _); [auto|]; destruct (is_breakz _); auto).
  unfold hint_text. destruct (hinted v); cbn [app].
  - set (R := chomp_text (chomp_of v) ++ x :: b). unfold scan_block_header. rewrite bgt. change (bget 0 (at_ (48 + d :: R) m)) with (Some (48 + d)). rewrite D2, D3, D1. cbn [orb].
    assert (Ed : scan_block_header_digit sm (at_ (48 + d :: R) m) = (Ok (Z.of_N d), at_ R (advance (len_utf8 (48 + d)) m))).
    { unfold scan_block_header_digit. rewrite bgt. change (bget 0 (at_ (48 + d :: R) m)) with (Some (48 + d)). rewrite D4, D5. rewrite (bok _ _ _ _ _ (skip_at _ _ _)). reflexivity. }
    rewrite (bok _ _ _ _ _ Ed), (bok _ _ _ _ _ (c_at _ _ _)), bgt. subst R. destruct Hc as [-> |[-> | ->]]; cbn [chomp_text Z.eqb app Pos.eqb].
    + eexists. reflexivity.
    + eexists. reflexivity.
    + rewrite bget_at'. cbn [nth_error]. rewrite X2, X3. eexists. reflexivity.
  - unfold scan_block_header. rewrite bgt. destruct Hc as [-> |[-> | ->]]; cbn [chomp_text Z.eqb app Pos.eqb].
    + rewrite bget_at'. cbn [nth_error]. change (chk 43 (Some 45)) with false. change (chk 45 (Some 45)) with true. cbn [orb]. cbv zeta iota. rewrite (bok _ _ _ _ _ (skip_at _ _ _)), (bok _ _ _ _ _ (c_at _ _ _)), bgt, bget_at'. cbn [nth_error]. rewrite X1. eexists. reflexivity.
    + rewrite bget_at'. cbn [nth_error]. change (chk 43 (Some 43)) with true. cbn [orb]. cbv zeta iota. rewrite (bok _ _ _ _ _ (skip_at _ _ _)), (bok _ _ _ _ _ (c_at _ _ _)), bgt, bget_at'. cbn [nth_error]. rewrite X1. eexists. reflexivity.
    + rewrite bget_at'. cbn [nth_error]. rewrite X1, X2, X3. eexists. reflexivity.
Qed.
Lemma span_whole v : forallb is_break_c v = true -> span is_break_c v = (v, []).
Proof. induction v as [|c v IH]; [reflexivity|]. cbn [forallb span]. intros H. apply andb_true_iff in H. destruct H as [-> H]. rewrite (IH H). reflexivity. Qed.
Section whole.
Variables (lit : bool) (n : nat) (d : N) (v q after : str) (k : nat).
Hypothesis Hn : (1 <= n)%nat.
Hypothesis Hk : (k < n)%nat.
Hypothesis Hq : Forall (fun x => is_break_c x = true) q.
Hypothesis Haf : forall x b, after = x :: b -> ~ white x.
Hypothesis Hv : v <> [].
Hypothesis Hl : Forall lchar v.
Hypothesis Hd : 1 <= d <= 9.
Hypothesis He1 : ends v = true -> q = [].
Hypothesis He2 : ends v = false -> q <> [].
Hypothesis Hin : if hinted v then Z.of_nat n = (if 0 <=? indent s then indent s + Z.of_N d else Z.of_N d)%Z else (indent s < Z.of_nat n)%Z.
Notation rest := (q ++ sps k ++ after).
Lemma body_at sm em m : m_col m = 0 ->
  exists st lb tb m' em' em2 m2 i tb0, scan_block_scalar_breaks (if hinted v then if (0 <=? indent s)%Z then (indent s + Z.of_N d)%Z else Z.of_N d else 0%Z) [] sm em (at_ (ltext lf n true v ++ rest) m) = (Ok (i, tb0, em2), m2) /\
    cache 1 m2 = (Ok tt, m2) /\
    block_scalar_lines lit sm i tb0 em2 m2 = (Ok (st, lb, tb, em'), at_ after m') /\
    read_back lit v = (if (chomp_of v =? 1)%Z then (if (chomp_of v =? -1)%Z then st else st ++ lb) ++ tb else if (chomp_of v =? -1)%Z then st else st ++ lb).
Proof.
  intros Hm. assert (Hsa : stop_line (Z.of_nat n) k after) by (left; split; [lia|exact Haf]).
  pose proof (span_app is_break_c v) as El. pose proof (span_all is_break_c v) as Hbs. pose proof (span_hd is_break_c v) as Hh2.
  destruct (span is_break_c v) as [bs l2] eqn:Espan. cbn [fst snd] in *.
  pose proof Hl as Hl'. rewrite El in Hl'. apply Forall_app in Hl'. destruct Hl' as [Hl1 Hl2].
  assert (Hbc : Forall bchar bs).
  { rewrite forallb_forall in Hbs. rewrite Forall_forall in *. intros y Hy. destruct (Hl1 y Hy) as [Hy1 _]. apply Hy1, Hbs, Hy. }
  destruct l2 as [|c2 l2].
  - (* only line breaks *)
    rewrite app_nil_r in El. subst bs.
    assert (Hen : ends v = true) by (unfold ends; destruct (rev v) as [|ch rl] eqn:Er; [apply (f_equal (@rev char)) in Er; rewrite rev_involutive in Er; cbn in Er; congruence|]; cbn; rewrite forallb_forall in Hbs; apply Hbs, in_rev; rewrite Er; left; reflexivity).
    rewrite (He1 Hen). cbn [app].
    assert (Hhi : hinted v = true) by (unfold hinted; destruct v as [|c0 v0]; [congruence|]; cbn in Hbs; apply andb_true_iff in Hbs; cbn [hd_error is_break]; rewrite (proj1 Hbs), orb_true_r; reflexivity).
    rewrite Hhi in *. rewrite <- Hin. assert (Et : ltext lf n true v = brtext lf v) by (pose proof (ltext_breaks lf n v [] true Hbc Hv) as Et; cbn [ltext] in Et; rewrite !app_nil_r in Et; exact Et). rewrite Et.
    destruct (sbb_at (Z.of_nat n) sm em k after v m ltac:(lia) Hsa Hbc Hm) as (m' & em' & E & C).
    exists [], [], v, m', em', em', (at_ after m'), (Z.of_nat n), v. split; [exact E|]. split; [apply c_at|]. split.
    + unfold block_scalar_lines. match goal with |- context [loop ?b] => change b with (lines_body lit sm) end.
      rewrite (bok _ _ _ _ _ (lr_loop _ _ _ _ _ (lr_stop _ _ _ _ _ (stopped lit sm n after k Hn Hk Haf [] [] v false em' m' C)))). reflexivity.
    + rewrite (chomp_breaks v Hv Hbc). unfold read_back. rewrite (span_whole v Hbs). apply app_nil_r.
  - set (l := c2 :: l2) in *. set (T2 := ltext lf n false l ++ rest).
    assert (Hs2 : stop_line (Z.of_nat n) n T2) by (right; split; [reflexivity|]; subst T2 l; cbn [ltext]; rewrite Hh2; cbn [app]; eexists _, _; split; [reflexivity|exact Hh2]).
    assert (E1 : exists m1 em1, scan_block_scalar_breaks (if hinted v then if (0 <=? indent s)%Z then (indent s + Z.of_N d)%Z else Z.of_N d else 0%Z) [] sm em (at_ (ltext lf n true v ++ rest) m) = (Ok (Z.of_nat n, bs, em1), at_ T2 m1) /\ m_col m1 = N.of_nat n).
    { destruct (hinted v) eqn:Ehi.
      - rewrite <- Hin. assert (Et : ltext lf n true v ++ rest = brtext lf bs ++ sps n ++ T2).
        { subst T2. assert (E2 : ltext lf n true l = sps n ++ ltext lf n false l) by (subst l; cbn [ltext]; rewrite Hh2; reflexivity).
          rewrite El. destruct bs as [|b0 bs]; [cbn [app brtext flat_map]; rewrite E2, <- app_assoc; reflexivity|]. rewrite ltext_breaks by (exact Hbc || discriminate). rewrite E2, <- !app_assoc. reflexivity. }
        rewrite Et. destruct (sbb_at (Z.of_nat n) sm em n T2 bs m ltac:(lia) Hs2 Hbc Hm) as (m1 & em1 & E & C). exists m1, em1. auto.
      - unfold hinted in Ehi. apply orb_false_iff in Ehi. destruct Ehi as [Hsp Hbr]. assert (bs = []) as ->.
        { destruct bs as [|b0 bs]; [reflexivity|]. rewrite El in Hbr. cbn in Hbr. inversion Hbc as [|? ? Hb0 _]; subst. rewrite (bchar_break _ Hb0) in Hbr. discriminate. }
        cbn [app] in El. rewrite El in *. assert (Hx : ~ white c2).
        { intros [[Hx|Hx]|Hx]; subst; [discriminate Hsp|inversion Hl2 as [|? ? [_ H9] _]; congruence|]. apply EmitSingle.break_c_line in Hx. congruence. }
        assert (Et : ltext lf n true l ++ rest = sps n ++ T2) by (subst T2 l; cbn [ltext]; rewrite Hh2; cbn [app]; rewrite <- app_assoc; reflexivity). rewrite Et.
        assert (ET : T2 = c2 :: (ltext lf n false l2 ++ rest)) by (subst T2 l; cbn [ltext]; rewrite Hh2; reflexivity). rewrite ET.
        destruct (sbb_auto sm em n c2 (ltext lf n false l2 ++ rest) m Hn Hin Hx Hm) as (m1 & em1 & E & C). exists m1, em1. auto. }
    destruct E1 as (m1 & em1 & E1 & C1).
    destruct (lines_at lit sm n q after k Hn Hk Hq Haf (S (length l)) l [] [] bs false em1 m1 ltac:(lia) ltac:(discriminate) Hh2 Hl2 C1) as (u & t & st & lb & tb & lk & em' & m' & L & (u0 & Eu0 & Hu0 & Hue0) & Eu & Hu & Hue & Ht & Est & Hlast).
    { rewrite El in He1. rewrite ends_app in He1 by discriminate. exact He1. }
    { rewrite El in He2. rewrite ends_app in He2 by discriminate. exact He2. }
    exists st, lb, tb, m', em', em1, (at_ T2 m1), (Z.of_nat n), bs. split; [exact E1|]. split; [apply c_at|]. split.
    + unfold block_scalar_lines. match goal with |- context [loop ?b] => change b with (lines_body lit sm) end. rewrite (bok _ _ _ _ _ (lr_loop _ _ _ _ _ L)). reflexivity.
    + assert (Est' : st = bs ++ u) by (rewrite Est; unfold gap_text; cbn [starts_with]; rewrite !andb_false_r; reflexivity).
      assert (Ev : read_back lit v = st ++ t) by (unfold read_back; rewrite Espan, Eu, Est', <- app_assoc; reflexivity).
      assert (Ech : chomp_of v = match t with [] => -1 | [_] => 0 | _ => 1 end%Z).
      { rewrite El, Eu0, app_assoc. apply chomp_split; [destruct bs; [exact Hu0|discriminate]|rewrite ends_app by exact Hu0; exact Hue0|exact Ht]. }
      rewrite Ev, Ech. destruct Hlast as [-> |(b & -> & ->)].
      * cbn. apply app_nil_r.
      * destruct tb as [|b2 tb]; cbn [Z.eqb]; [reflexivity|]. cbn [Pos.eqb]. rewrite <- app_assoc. reflexivity.
Qed.
Definition block_char : char := if lit then 124 else 62.
Theorem block_at_state m : exists e m', scan_block_scalar lit (at_ (block_char :: hint_text v d ++ chomp_text (chomp_of v) ++ lf ++ ltext lf n true v ++ rest) m) =
    (Ok (Mk_token (TScalar (read_back lit v) (if lit then SLiteral else SFolded)) m e), at_ after m').
Proof.
  set (T := ltext lf n true v ++ rest). unfold scan_block_scalar.
  rewrite (bok (gets pos) _ (at_ (block_char :: hint_text v d ++ chomp_text (chomp_of v) ++ lf ++ T) m) m _ eq_refl), (bok _ _ _ _ _ (skip_at _ _ _)), (bok _ _ _ _ _ (c_at _ _ _)).
  destruct (header_at m v d T (advance (len_utf8 block_char) m) Hd) as (m1 & E1). rewrite (bok _ _ _ _ _ E1), (bok _ _ _ _ _ (c_at _ _ _)).
  destruct (lf_hd T) as (x & b & Ex & Hx).
  destruct (spaces_at (fun s => is_blank (bget 0 s)) (lf ++ T) 0 m1) as (m2 & E2 & _); [intros; lia|intros m' _; rewrite Ex, bget_at'; destruct Hx; subst x; reflexivity|]. cbn [sps repeat app] in E2.
  rewrite (bok _ _ _ _ _ E2), bgt. assert (Eb : bget 0 (at_ (lf ++ T) m2) = Some x) by (rewrite Ex; reflexivity). rewrite Eb.
  replace (chk 35 (Some x)) with false by (destruct Hx; subst; reflexivity). cbn [when]. rewrite (bok (ret tt) _ _ tt _ eq_refl), bgt, Eb.
  replace (is_breakz (Some x)) with true by (destruct Hx; subst; reflexivity). replace (is_break (Some x)) with true by (destruct Hx; subst; reflexivity). cbn [negb when]. rewrite (bok (ret tt) _ _ tt _ eq_refl).
  assert (HT : match T with 10 :: _ => lf <> [13] | _ => True end).
  { subst T. destruct v as [|c0 v0]; [congruence|]. cbn [ltext]. destruct (is_break_c c0) eqn:E0.
    - inversion Hl as [|? ? [Hc0 _] _]; subst. specialize (Hc0 E0). unfold btext. destruct Hc0 as [-> |[-> | ->]]; cbn; try exact I. destruct Hlf as [-> |[-> | ->]]; cbn; try exact I. discriminate.
    - destruct n; [lia|exact I]. }
  destruct (slb_at T m2 HT) as (w & E3).
  assert (E4 : (cache 2 ;; skip_line_break) (at_ (lf ++ T) m2) = (Ok tt, at_ T (next_line w m2))) by (rewrite (bok _ _ _ _ _ (c_at _ _ _)); exact E3).
  rewrite (bok _ _ _ _ _ E4), (bok (gets pos) _ (at_ T (next_line w m2)) (next_line w m2) _ eq_refl), bgt. cbv zeta. change (indent (at_ T (next_line w m2))) with (indent s).
  destruct (body_at m (next_line w m2) (next_line w m2) eq_refl) as (st & lb & tb & m' & em' & em2 & s2 & i & tb0 & E5 & E6 & E7 & Ev).
  replace (if (if hinted v then Z.of_N d else 0) =? 0 then 0 else if 0 <=? indent s then indent s + (if hinted v then Z.of_N d else 0) else (if hinted v then Z.of_N d else 0))%Z
     with (if hinted v then if (0 <=? indent s)%Z then (indent s + Z.of_N d)%Z else Z.of_N d else 0%Z) by (destruct (hinted v); [replace (Z.of_N d =? 0)%Z with false by lia|]; reflexivity).
  fold T in E5. rewrite (bok _ _ _ _ _ E5), (bok _ _ _ _ _ E6), (bok _ _ _ _ _ E7). match goal with |- context [TScalar ?q _] => replace q with (read_back lit v) by exact Ev end. exists em', m'. reflexivity.
Qed.
End whole.
Theorem literal_at_state n d v q after k : (1 <= n)%nat -> (k < n)%nat -> Forall (fun x => is_break_c x = true) q -> (forall x b, after = x :: b -> ~ white x) -> v <> [] -> Forall lchar v -> 1 <= d <= 9 ->
  (ends v = true -> q = []) -> (ends v = false -> q <> []) -> (if hinted v then Z.of_nat n = (if 0 <=? indent s then indent s + Z.of_N d else Z.of_N d)%Z else (indent s < Z.of_nat n)%Z) -> forall m,
  exists e m', scan_block_scalar true (at_ (124 :: hint_text v d ++ chomp_text (chomp_of v) ++ lf ++ ltext lf n true v ++ q ++ sps k ++ after) m) =
    (Ok (Mk_token (TScalar v SLiteral) m e), at_ after m').
Proof. intros H1 H2 H3 H4 H5 H6 H7 H8 H9 H10 m. pose proof (block_at_state true n d v q after k H1 H2 H3 H4 H5 H6 H7 H8 H9 H10 m) as K. rewrite read_back_lit in K. exact K. Qed.
Theorem literal_at n d v q after k : (1 <= n)%nat -> (k < n)%nat -> Forall (fun x => is_break_c x = true) q -> (forall x b, after = x :: b -> ~ white x) -> v <> [] -> Forall lchar v -> 1 <= d <= 9 ->
  (ends v = true -> q = []) -> (ends v = false -> q <> []) -> (if hinted v then Z.of_nat n = (if 0 <=? indent s then indent s + Z.of_N d else Z.of_N d)%Z else (indent s < Z.of_nat n)%Z) -> forall m,
  exists e s', scan_block_scalar true (at_ (124 :: hint_text v d ++ chomp_text (chomp_of v) ++ lf ++ ltext lf n true v ++ q ++ sps k ++ after) m) =
    (Ok (Mk_token (TScalar v SLiteral) m e), s') /\ buffer s' = after /\ eof s' = true.
Proof. intros H1 H2 H3 H4 H5 H6 H7 H8 H9 H10 m. destruct (literal_at_state n d v q after k H1 H2 H3 H4 H5 H6 H7 H8 H9 H10 m) as (e & m' & E). exists e, (at_ after m'). split; [exact E|]. split; [reflexivity|apply Hid]. Qed.
End scan.
