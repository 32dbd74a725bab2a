(** LayEmit.v -- the items the emitter writes in block or flow layout, and their tokens. *)
From Coq Require Import Lia ZifyBool ZifyNat ZifyN Bool.
From Verif Require Import Base Utf Chars State Reader Scanner Wp ScanFacts RoundScan RoundPlain EState Emitter Document Api EmitText EmitScalar EmitQuoted Spec_Events EventFacts Spec_EmitNames EmitGrammar CanonLex CanonBody LayItems LayScan LayToks.
From Verif Require CanonEmit Spec_Lexical.
Import Spec_Lexical (breaks_line).
Open Scope N_scope.

(** ** What a layout state says *)
(** Tokens that the marked simple key will bring. *)
Definition kind_of (ls : lstate) : kind := if lv ls =? 0 then if (LayItems.top (lli ls) <? Z.of_N (lcol ls))%Z then KRoll else KSame else KFlow.
Definition pend (ls : lstate) : list token_data := if lsoon ls then ins (kind_of ls) else [].
(** The columns of the open block collections, the one of the marked simple key included. *)
Definition eli (ls : lstate) : list N := if lsoon ls then match kind_of ls with KRoll => lcol ls :: lli ls | _ => lli ls end else lli ls.
(** No simple key; one marked; one begun. [n]: bytes it may have yet. *)
Inductive key := YNo | YSoon (n : N) | YLive (n : N).
Definition keyed (ls : lstate) (y : key) : Prop :=
  match y with
  | YNo => live (lsl ls) = false /\ lsoon ls = false
  | YSoon n => live (lsl ls) = false /\ lsoon ls = true /\ n <= 1024
  | YLive n => lsoon ls = false /\ exists k c u r, lsl ls = SLive k c u :: r /\ live r = false /\ u + n <= 1024 /\ (lv ls =? 0) = match k with KFlow => false | _ => true end
  end.
Definition room (y : key) (n : N) : Prop := match y with YNo => True | YSoon m | YLive m => n <= m end.
Definition less (y : key) (n : N) : key := match y with YNo => YNo | YSoon m => YSoon (m - n) | YLive m => YLive (m - n) end.
Definition sure (y : key) : key := match y with YSoon m => YLive m | y => y end.
Definition calm (y : key) (w : str) : Prop := match y with YLive m => has_break w = false /\ str_len w <= m | _ => True end.

Definition settled (n : need) : Prop := match n with Gapped _ _ | Lined _ _ => False | _ => True end.
Definition unlined (n : need) : Prop := match n with Lined _ _ => False | _ => True end.
Lemma unlined_space ls : unlined (ln ls) -> may_space ls = true. Proof. unfold may_space. destruct (ln ls); auto; contradiction. Qed.
Lemma unlined_break ls : unlined (ln ls) -> may_break ls = true. Proof. unfold may_break. destruct (ln ls); auto; contradiction. Qed.
Lemma settled_un n : settled n -> unlined n. Proof. destruct n; cbn; tauto. Qed.
Lemma sep_un ls : opens_gate ls GSep = true -> unlined (ln ls). Proof. unfold opens_gate. destruct (ln ls); cbn; auto. discriminate. Qed.

(** Flow collections around a place, and their slots. *)
Fixpoint flows (fs : list lframe) : N := match fs with f :: r => if blk f then 0 else 1 + flows r | [] => 0 end.
Fixpoint below (fs : list lframe) (sl : list slot) : Prop :=
  match fs with
  | [] => exists s, sl = [s]
  | f :: r => if blk f then exists s, sl = [s] else match sl with s :: sl' => (match f with LVal false => s = SOff | _ => True end) /\ below r sl' | [] => False end
  end.
Lemma below_map g fs : g SOff = SOff -> forall sl, below fs sl -> below fs (map g sl).
Proof.
  intros Hg. induction fs as [|f r IH]; intros sl; cbn [below]; [intros (s & ->); eexists; reflexivity|]. destruct (blk f); [intros (s & ->); eexists; reflexivity|].
  destruct sl as [|s sl]; [auto|]. cbn [map]. intros [H1 H2]. split; [|apply IH, H2]. destruct f as [| | | |[]]; auto. rewrite H1. exact Hg.
Qed.
Lemma below_cons fs sl : below fs sl -> exists s r, sl = s :: r.
Proof. destruct fs as [|f r]; cbn [below]; [intros (s & ->); eauto|]. destruct (blk f); [intros (s & ->); eauto|]. destruct sl; [contradiction|eauto]. Qed.
Lemma below_off fs s r : below fs (s :: r) -> below fs (SOff :: r).
Proof. destruct fs as [|f q]; cbn [below]; [intros (s0 & [= -> ->]); eauto|]. destruct (blk f); [intros (s0 & [= -> ->]); eauto|]. intros [_ H]. split; [destruct f as [| | | |[]]; auto|exact H]. Qed.
Definition loose (fs : list lframe) : Prop := match fs with LVal false :: _ => False | _ => True end.
Lemma below_any fs s s' r : loose fs -> below fs (s :: r) -> below fs (s' :: r).
Proof.
  intros Hl. destruct fs as [|f q]; cbn [below]; [intros (s0 & [= -> ->]); eauto|]. destruct (blk f) eqn:E; [intros (s0 & [= -> ->]); eauto|]. intros [_ H].
  split; [destruct f as [| | | |[]]; auto; contradiction Hl|exact H].
Qed.

Section lay.
Variable lf : str.
Hypothesis Hlf : lf_ok lf.
Notation lstep := (lstep lf).
Notation lrun := (lrun lf).
Notation texts := (texts lf).
Notation item_ok := (item_ok lf).
Notation itext := (itext lf).

(** ** Steps *)
Record same (ls ls' : lstate) : Prop := Same { m_lv : lv ls' = lv ls; m_li : lli ls' = lli ls; m_po : lpop ls' = lpop ls; m_al : lal ls' = lal ls; m_so : lsoon ls' = lsoon ls; m_n : ln ls' = ln ls }.
Lemma live_bump n sl : live (map (bump n) sl) = live sl.
Proof. induction sl as [|s sl IH]; [reflexivity|]. cbn [map live existsb]. fold (live (map (bump n) sl)). rewrite IH. destruct s; reflexivity. Qed.
Lemma dead_fresh n sl : live sl = false -> forallb fresh_enough (map (bump n) sl) = true.
Proof. induction sl as [|s sl IH]; [reflexivity|]. cbn [live existsb map forallb]. intros H. apply orb_false_iff in H. destruct H as [H1 H2]. rewrite (IH H2). destruct s; try discriminate H1; reflexivity. Qed.
Lemma live_off (sl : list slot) : live (map (fun _ => SOff) sl) = false. Proof. induction sl; auto. Qed.
Lemma walk_ok w ls y fs : keyed ls y -> below fs (lsl ls) -> calm y w ->
  exists ls', walk w ls = Some ls' /\ same ls ls' /\ lcol ls' = cadv (lcol ls) w /\ below fs (lsl ls') /\ keyed ls' (match y with YLive m => YLive (m - str_len w) | y => y end).
Proof.
  intros Hk Hb Hc. unfold walk. destruct y as [|n|n]; cbn [keyed calm] in *.
  - destruct Hk as [Hl Hs]. destruct (has_break w).
    + rewrite Hl. eexists. split; [reflexivity|]. split; [constructor; reflexivity|]. split; [reflexivity|]. split; [apply below_map; auto|]. split; [apply live_off|exact Hs].
    + rewrite (dead_fresh _ _ Hl). eexists. split; [reflexivity|]. split; [constructor; reflexivity|]. split; [reflexivity|]. split; [apply below_map; auto|]. split; [cbn [lsl]; rewrite live_bump; exact Hl|exact Hs].
  - destruct Hk as (Hl & Hs & Hn). destruct (has_break w).
    + rewrite Hl. eexists. split; [reflexivity|]. split; [constructor; reflexivity|]. split; [reflexivity|]. split; [apply below_map; auto|]. split; [apply live_off|auto].
    + rewrite (dead_fresh _ _ Hl). eexists. split; [reflexivity|]. split; [constructor; reflexivity|]. split; [reflexivity|]. split; [apply below_map; auto|]. split; [cbn [lsl]; rewrite live_bump; exact Hl|auto].
  - destruct Hk as (Hs & k & c & u & r & El & Hr & Hu & Hv). destruct Hc as [Hw Hm]. rewrite Hw, El. cbn [map forallb bump fresh_enough].
    replace (u + str_len w <=? 1024) with true by lia. rewrite (dead_fresh _ _ Hr). cbn [andb]. eexists. split; [reflexivity|]. split; [constructor; reflexivity|]. split; [reflexivity|]. cbn [lsl].
    split; [change (SLive k c (u + str_len w) :: map (bump (str_len w)) r) with (map (bump (str_len w)) (SLive k c u :: r)); rewrite <- El; apply below_map; auto|].
    split; [exact Hs|]. exists k, c, (u + str_len w), (map (bump (str_len w)) r). split; [reflexivity|]. split; [rewrite live_bump; exact Hr|]. split; [lia|exact Hv].
Qed.
Lemma pend_same ls ls' : same ls ls' -> lsoon ls = false -> pend ls' = pend ls /\ eli ls' = eli ls.
Proof. intros [] H. unfold pend, eli. rewrite m_so0, H. auto. Qed.

(** A place for a node. [w]: no space is wanted. *)
Record NP (w : bool) (fs : list lframe) (li : list N) (ls : lstate) (y : key) : Prop := Np {
  np_lv : lv ls = flows fs;
  np_li : eli ls = li;
  np_below : below fs (lsl ls);
  np_need : if w then opens_gate ls GNode = true else settled (ln ls);
  np_key : keyed ls y;
  np_col : lv ls = 0 -> (LayItems.top (lli ls) <= Z.of_N (lcol ls))%Z;
  np_pop : lpop ls = [] \/ w = true /\ lv ls = 0 /\ Forall (fun p => lcol ls < p) (lpop ls);
  np_al : match y with
    | YNo => lal ls = true -> lv ls = 0 -> (LayItems.top (lli ls) < Z.of_N (lcol ls))%Z
    | YSoon _ => lal ls = true /\ (lv ls = 0 -> w = true /\ lcol ls <= 2147483647)
    | YLive _ => lal ls = false
    end;
  np_top : lal ls = true -> loose fs }.
Lemma np_soon w fs li ls n : NP w fs li ls (YSoon n) -> w = false -> (lv ls =? 0) = false.
Proof. intros H ->. destruct (lv ls =? 0) eqn:E; [|reflexivity]. apply N.eqb_eq in E. destruct (np_al _ _ _ _ _ H) as [_ H1]. destruct (H1 E); discriminate. Qed.
Lemma cadv_sp x : cadv x [32] = x + 1. Proof. reflexivity. Qed.
Lemma NP_space fs li ls y : NP false fs li ls y -> room y 1 -> exists ls', lstep ls ISp = Some (ls', []) /\ NP true fs li ls' (less y 1) /\ pend ls' = pend ls /\ lcol ls' = lcol ls + 1 /\ lal ls' = lal ls.
Proof.
  intros H Hr. destruct (walk_ok [32] ls y fs (np_key _ _ _ _ _ H) (np_below _ _ _ _ _ H)) as (s1 & E & S & C & B & K).
  { destruct y; cbn [calm room] in *; auto. }
  pose proof S as S'. destruct S as [S1 S2 S3 S4 S5 S6]. rewrite cadv_sp in C.
  exists (then_ (lal s1) Free s1). cbn [lstep]. pose proof (np_need _ _ _ _ _ H) as X. cbn in X. rewrite (unlined_space _ (settled_un _ X)), E. cbn [guard option_bind]. split; [f_equal; f_equal; destruct (ln ls) eqn:En; try reflexivity; contradiction X|]. clear X.
  assert (Hkk : lsoon ls = true -> kind_of s1 = kind_of ls /\ (lv ls =? 0) = false).
  { intros Hs. destruct y as [|n|n]; cbn [keyed] in K; pose proof (np_key _ _ _ _ _ H) as K0; cbn [keyed] in K0; [destruct K0; congruence| |destruct K0; congruence].
    pose proof (np_soon _ _ _ _ _ H eq_refl) as Hv. split; [|exact Hv]. unfold kind_of. rewrite S1, Hv. reflexivity. }
  assert (Hp : pend (then_ (lal s1) Free s1) = pend ls /\ eli (then_ (lal s1) Free s1) = eli ls).
  { unfold pend, eli. cbn [then_ lsoon]. change (kind_of (then_ (lal s1) Free s1)) with (kind_of s1). rewrite S5. destruct (lsoon ls); [|auto]. destruct (Hkk eq_refl) as [-> Hv]. split; [reflexivity|]. cbn [then_ lli lcol]. rewrite S2. unfold kind_of. rewrite Hv. reflexivity. }
  split; [|split; [apply Hp|split; [exact C|exact S4]]]. destruct H as [H1 H2 H3 H4 H5 H6 H7 H8 H9]. constructor; cbn [then_ lv lsl ln lli lcol lpop lal].
  - congruence.
  - rewrite (proj2 Hp). exact H2.
  - exact B.
  - reflexivity.
  - destruct y as [|n|n]; cbn [less keyed] in *; [exact K| |].
    + change (live (lsl s1) = false /\ lsoon s1 = true /\ n - 1 <= 1024). destruct K as (? & ? & ?). split; [assumption|]. split; [assumption|]. lia.
    + exact K.
  - rewrite S1, S2, C. intros Hv. specialize (H6 Hv). lia.
  - left. rewrite S3. destruct H7 as [H7|(H7 & _)]; [exact H7|discriminate].
  - rewrite ?S1, ?S2, S4. destruct y as [|n|n]; cbn [less]; [rewrite C; intros Ha Hv; specialize (H8 Ha Hv); lia| |exact H8].
    split; [exact (proj1 H8)|]. intros Hv. destruct (proj2 H8 Hv); discriminate.
  - rewrite S4. exact H9.
Qed.
Lemma NP_token fs li ls y : NP true fs li ls y -> opens_gate ls GNode = true /\ exists s1 s2, flush ls = Some s1 /\ save s1 = Some (s2, pend ls) /\
  lv s2 = flows fs /\ lcol s2 = lcol ls /\ lli s2 = li /\ lpop s2 = [] /\ lal s2 = lal ls /\ below fs (lsl s2) /\ lsoon s2 = false /\ keyed s2 (sure y) /\ (lv s2 = 0 -> (LayItems.top li <= Z.of_N (lcol s2))%Z).
Proof.
  intros [H1 H2 H3 H4 H5 H6 H7 H8 H9]. split; [exact H4|].
  assert (F : exists s1, flush ls = Some s1 /\ same (LS (lv ls) (lcol ls) (lli ls) [] (lal ls) (lsl ls) (lsoon ls) (ln ls)) s1 /\ lcol s1 = lcol ls /\ lsl s1 = lsl ls).
  { unfold flush. destruct (lv ls =? 0) eqn:Ev.
    - apply N.eqb_eq in Ev. specialize (H6 Ev). replace (forallb (fun i => lcol ls <? i) (lpop ls)) with true; [replace (_ <=? _)%Z with true by lia; cbn [andb]; eexists; split; [reflexivity|]; split; [constructor; reflexivity|auto]|].
      symmetry. destruct H7 as [-> |(_ & _ & H7)]; [reflexivity|]. apply forallb_forall. intros x Hx. rewrite Forall_forall in H7. specialize (H7 x Hx). lia.
    - destruct H7 as [H7|(_ & H7 & _)]; [|lia]. rewrite H7. cbn [is_empty]. eexists. split; [reflexivity|]. split; [constructor; auto|auto]. }
  destruct F as (s1 & EF & [F1 F2 F3 F4 F5 F6] & F7 & F8). cbn [lv lli lpop lal lsoon ln] in *. exists s1. unfold save. rewrite F8. destruct (below_cons _ _ H3) as (sl & r & El). rewrite El, F5.
  unfold eli in H2. unfold pend. destruct y as [|n|n]; cbn [keyed sure] in *.
  - destruct H5 as [H5 Hs]. rewrite Hs in *. rewrite F4. destruct (lal ls) eqn:Ea.
    + rewrite El in H5. cbn [live existsb] in H5. apply orb_false_iff in H5. destruct H5 as [H5 H5']. rewrite H5. cbn [orb]. rewrite F1, F2, F7.
      replace ((lv ls =? 0) && (LayItems.top (lli ls) =? Z.of_N (lcol ls))%Z) with false by (destruct (lv ls =? 0) eqn:Ev; [specialize (H8 eq_refl); lia|reflexivity]).
      eexists. split; [exact EF|]. split; [reflexivity|]. unfold with_slots. cbn [lv lcol lli lpop lal lsl lsoon]. rewrite F1, F3, F4, F7. split; [exact H1|]. split; [reflexivity|]. split; [exact H2|]. split; [reflexivity|]. split; [reflexivity|].
      split; [rewrite El in H3; eapply below_any; [apply H9; reflexivity|exact H3]|]. split; [reflexivity|]. split; [split; [exact H5'|reflexivity]|]. rewrite <- H2. exact H6.
    + exists s1. split; [exact EF|]. split; [reflexivity|]. split; [congruence|]. split; [congruence|]. split; [congruence|]. split; [congruence|]. split; [congruence|]. split; [rewrite F8; exact H3|]. split; [congruence|].
      split; [split; [rewrite F8; exact H5|congruence]|]. rewrite F1, F7, <- H2. exact H6.
  - destruct H5 as (H5 & Hs & Hn). rewrite Hs in *. rewrite F4. destruct H8 as [H8 H8']. rewrite H8. rewrite El in H5. rewrite H5. cbn [negb andb]. rewrite F1, F2, F7. unfold kind_of in *.
    cbn [live existsb] in H5. apply orb_false_iff in H5. destruct H5 as [_ H5].
    assert (B' : forall k, below fs (SLive k (lcol ls) 0 :: r)) by (intros k; rewrite El in H3; eapply below_any; [apply H9, H8|exact H3]).
    destruct (lv ls =? 0) eqn:Ev.
    + apply N.eqb_eq in Ev. specialize (H6 Ev). destruct (H8' Ev) as [_ Hm]. destruct (_ <? _)%Z eqn:Et.
      * replace (lcol ls <=? 2147483647) with true by lia. eexists. split; [exact EF|]. split; [reflexivity|]. unfold with_slots. cbn [lv lcol lli lpop lal lsl lsoon]. rewrite F1, F3, F4, F7.
        split; [exact H1|]. split; [reflexivity|]. split; [exact H2|]. split; [reflexivity|]. split; [exact H8|]. split; [apply B'|]. split; [reflexivity|].
        split; [split; [reflexivity|]; exists KRoll, (lcol ls), 0, r; cbn [lv]; rewrite ?F1, Ev; split; [reflexivity|]; split; [exact H5|]; split; [lia|reflexivity]|].
        intros _. rewrite <- H2. cbn. lia.
      * replace (LayItems.top (lli ls) =? Z.of_N (lcol ls))%Z with true by lia. eexists. split; [exact EF|]. split; [reflexivity|]. unfold with_slots. cbn [lv lcol lli lpop lal lsl lsoon]. rewrite F1, F3, F4, F7.
        split; [exact H1|]. split; [reflexivity|]. split; [exact H2|]. split; [reflexivity|]. split; [exact H8|]. split; [apply B'|]. split; [reflexivity|].
        split; [split; [reflexivity|]; exists KSame, (lcol ls), 0, r; cbn [lv]; rewrite ?F1, Ev; split; [reflexivity|]; split; [exact H5|]; split; [lia|reflexivity]|].
        intros _. rewrite <- H2. lia.
    + eexists. split; [exact EF|]. split; [reflexivity|]. unfold with_slots. cbn [lv lcol lli lpop lal lsl lsoon]. rewrite F1, F3, F4, F7.
      split; [exact H1|]. split; [reflexivity|]. split; [exact H2|]. split; [reflexivity|]. split; [exact H8|]. split; [apply B'|]. split; [reflexivity|].
      split; [split; [reflexivity|]; exists KFlow, (lcol ls), 0, r; cbn [lv]; rewrite ?F1, Ev; split; [reflexivity|]; split; [exact H5|]; split; [lia|reflexivity]|]. lia.
  - destruct H5 as (Hs & k & c & u & q & E5 & Hq & Hu & Hv). rewrite Hs in *. rewrite F4, H8. exists s1. split; [exact EF|]. split; [reflexivity|]. split; [congruence|]. split; [congruence|]. split; [congruence|]. split; [congruence|]. split; [congruence|]. split; [rewrite F8; exact H3|]. split; [congruence|].
    split; [|rewrite F1, F7, <- H2; exact H6]. split; [congruence|]. exists k, c, u, q. rewrite F8, F1. auto.
Qed.

(** *** After a token *)
Record At (fs : list lframe) (li : list N) (ls : lstate) (y : key) : Prop := Att {
  at_lv : lv ls = flows fs; at_li : lli ls = li; at_below : below fs (lsl ls); at_pop : lpop ls = []; at_soon : lsoon ls = false; at_key : keyed ls y }.
Definition sp (w : bool) : list item := if w then [] else [ISp].
Definition fits (y : key) (t : str) : Prop := match y with YNo => True | YSoon m | YLive m => has_break t = false /\ str_len t + 1 <= m end.
Lemma cadv_line t : forall x, has_break t = false -> cadv x t = x + N.of_nat (length t).
Proof.
  unfold cadv. induction t as [|c t IH]; intros x; cbn [has_break existsb fold_left length]; [lia|]. intros H. apply orb_false_iff in H. destruct H as [H1 H2]. rewrite H1, (IH (x + 1) H2). lia.
Qed.
Lemma keyed_less ls m n : n <= m -> keyed ls (YLive m) -> keyed ls (YLive n).
Proof. intros H (H1 & k & c & u & r & H2 & H3 & H4 & H5). split; [exact H1|]. exists k, c, u, r. split; [exact H2|]. split; [exact H3|]. split; [lia|exact H5]. Qed.
Lemma keyed_less' ls y m n : n <= m -> keyed ls (less (sure y) n) -> keyed ls (less (sure y) m).
Proof. destruct y as [|k|k]; cbn [sure less]; [auto|..]; intros H; apply keyed_less; lia. Qed.
Lemma sp_np w fs li ls y : NP w fs li ls y -> room y 1 -> exists ls', lrun ls (sp w) = Some (ls', []) /\ NP true fs li ls' (if w then y else less y 1) /\ pend ls' = pend ls /\ lcol ls' = lcol ls + (if w then 0 else 1) /\ lal ls' = lal ls.
Proof.
  intros H Hr. destruct w; cbn [sp].
  - exists ls. split; [reflexivity|]. split; [exact H|]. split; [reflexivity|]. split; [lia|reflexivity].
  - destruct (NP_space _ _ _ _ H Hr) as (ls' & E & H1 & H2 & H3 & H4). exists ls'. cbn [lrun]. unfold LayScan.lrun. rewrite E. cbn [option_bind app]. auto.
Qed.
Lemma NP_item w fs li ls y it n (extra : lstate -> lstate -> bool) :
  (forall s, lstep s it = (do _ <- guard (opens_gate s GNode); do s1 <- flush s; do (s2, tk) <- save s1; do _ <- guard (extra s s2); do s3 <- walk (itext it) s2; Some (then_ false n s3, tk ++ itok it))) ->
  NP w fs li ls y -> fits y (itext it) -> (forall s s2, lv s = flows fs -> lcol s = lcol ls + (if w then 0 else 1) -> lli s2 = li -> (lv s = 0 -> (LayItems.top li <= Z.of_N (lcol s))%Z) -> extra s s2 = true) ->
  exists ls', lrun ls (sp w ++ [it]) = Some (ls', pend ls ++ itok it) /\ At fs li ls' (less (sure y) (1 + str_len (itext it))) /\ lal ls' = false /\ ln ls' = n /\
    lcol ls' = cadv (lcol ls + (if w then 0 else 1)) (itext it) /\ (lv ls' = 0 -> has_break (itext it) = false -> (LayItems.top li <= Z.of_N (lcol ls'))%Z).
Proof.
  intros Hstep H Hf Hx. destruct (sp_np w fs li ls y H) as (l1 & E1 & N1 & P1 & C1 & A1); [destruct y; cbn [room fits] in *; lia|].
  destruct (NP_token _ _ _ _ N1) as (G & s1 & s2 & F1 & F2 & L1 & L2 & L3 & L4 & L5 & L6 & L7 & L8 & L9).
  destruct (walk_ok (itext it) s2 (sure (if w then y else less y 1)) fs L8 L6) as (s3 & W1 & [S1 S2 S3 S4 S5 S6] & W3 & W4 & W5).
  { destruct y as [|m|m], w; cbn [sure less calm fits] in *; auto; destruct Hf as [Hf1 Hf2]; (split; [exact Hf1|lia]). }
  exists (then_ false n s3). split; [|split; [|split; [reflexivity|split; [reflexivity|]]]].
  - rewrite <- P1. eapply (lrun_join lf (sp w) ls [it] l1 []); [exact E1|]. cbn [LayScan.lrun]. rewrite Hstep, G. cbn [guard option_bind]. rewrite F1. cbn [option_bind]. rewrite F2. cbn [option_bind].
    rewrite Hx; [|rewrite (np_lv _ _ _ _ _ N1); reflexivity|exact C1|exact L3|intros Hv; rewrite <- L2; apply L9; rewrite L1, <- (np_lv _ _ _ _ _ N1); exact Hv]. cbn [guard option_bind]. rewrite W1. cbn [option_bind]. rewrite !app_nil_r. reflexivity.
  - constructor; cbn [then_ lv lli lsl lpop lsoon]; [congruence|congruence|exact W4|congruence|congruence|].
    assert (K : keyed s3 (less (sure y) (1 + str_len (itext it)))).
    { destruct y as [|m|m]; cbn [sure less] in *; [destruct w; exact W5|destruct w; (eapply keyed_less; [|exact W5]; lia)..]. }
    destruct (less (sure y) (1 + str_len (itext it))); exact K.
  - cbn [then_ lcol lv]. rewrite W3, L2, C1. split; [reflexivity|]. intros Hv Hb. rewrite (cadv_line _ _ Hb). specialize (L9 ltac:(congruence)). lia.
Qed.
Lemma At_NP fs li ls y : At fs li ls y -> lal ls = false -> settled (ln ls) -> (lv ls = 0 -> (LayItems.top li <= Z.of_N (lcol ls))%Z) -> NP false fs li ls y.
Proof.
  intros [H1 H2 H3 H4 H5 H6] Ha Hn Hc. constructor; [exact H1|unfold eli; rewrite H5; exact H2|exact H3|exact Hn|exact H6|rewrite H2; exact Hc|left; exact H4| |congruence].
  destruct y; [congruence|destruct H6 as (_ & H6 & _); congruence|exact Ha].
Qed.

(** *** Flow collections *)
Record Under (fs : list lframe) (li : list N) (ls : lstate) (y : key) : Prop := Und {
  un_lv : lv ls = flows fs + 1; un_li : lli ls = li; un_sl : lsl ls = SOff :: tl (lsl ls); un_below : below fs (tl (lsl ls)); un_pop : lpop ls = []; un_soon : lsoon ls = false;
  un_al : lal ls = true; un_n : ln ls = Free; un_key : keyed (level (flows fs) (slots_to (tl (lsl ls)) ls)) y }.
Lemma walk_push w v s s3 : walk w s = Some s3 -> walk w (level v (slots_to (SOff :: lsl s) s)) = Some (level v (slots_to (SOff :: lsl s3) s3)).
Proof.
  unfold walk. cbn [level slots_to lsl lv lcol lli lpop lal lsoon ln]. destruct (has_break w).
  - change (live (SOff :: lsl s)) with (live (lsl s)). destruct (live (lsl s)); [discriminate|]. intros [= <-]. reflexivity.
  - cbn [map bump forallb fresh_enough andb]. destruct (forallb _ _); [|discriminate]. intros [= <-]. reflexivity.
Qed.
Lemma keyed_view a b y : lv a = lv b -> lsl a = lsl b -> lsoon a = lsoon b -> keyed a y -> keyed b y.
Proof. intros H1 H2 H3. destruct y; cbn [keyed]; rewrite ?H1, ?H2, ?H3; auto. Qed.
Lemma one_char c : breaks_line c = false -> has_break [c] = false /\ (c < 128 -> str_len [c] = 1).
Proof. intros H. split; [cbn; rewrite H; reflexivity|]. intros Hc. cbn. unfold len_utf8. replace (c <? 128) with true by lia. reflexivity. Qed.
Lemma calm_one y c : breaks_line c = false -> c < 128 -> room y 1 -> calm y [c].
Proof. intros H1 H2 H3. destruct (one_char c H1) as [H4 H5]. destruct y; cbn [calm room] in *; auto. rewrite (H5 H2). auto. Qed.
Lemma NP_open mp w fs li ls y : NP w fs li ls y -> room y 2 -> flows fs < 2147483647 ->
  exists ls', lrun ls (sp w ++ [IOpen mp]) = Some (ls', pend ls ++ itok (IOpen mp)) /\ Under fs li ls' (less (sure y) 2) /\ lcol ls' = lcol ls + (if w then 0 else 1) + 1 /\ (flows fs = 0 -> (LayItems.top li <= Z.of_N (lcol ls'))%Z).
Proof.
  intros H Hf Hb. destruct (sp_np w fs li ls y H) as (l1 & E1 & N1 & P1 & C1 & A1); [destruct y; cbn [room] in *; lia|].
  destruct (NP_token _ _ _ _ N1) as (G & s1 & s2 & F1 & F2 & L1 & L2 & L3 & L4 & L5 & L6 & L7 & L8 & L9).
  set (ch := if mp then 123 else 91). assert (Hch : breaks_line ch = false /\ ch < 128) by (subst ch; destruct mp; split; [reflexivity|lia|reflexivity|lia]). destruct Hch as [Hc1 Hc2].
  destruct (walk_ok [ch] s2 (sure (if w then y else less y 1)) fs L8 L6) as (s3 & W1 & [S1 S2 S3 S4 S5 S6] & W3 & W4 & W5).
  { apply calm_one; [exact Hc1|exact Hc2|]. destruct y as [|m|m], w; cbn [sure less room] in *; lia. }
  pose proof (walk_push [ch] (flows fs + 1) s2 s3 W1) as W2.
  exists (then_ true Free (level (flows fs + 1) (slots_to (SOff :: lsl s3) s3))). split; [|split].
  - rewrite <- P1. eapply (lrun_join lf (sp w) ls [IOpen mp] l1 []); [exact E1|]. cbn [LayScan.lrun LayItems.lstep]. rewrite G. cbn [guard option_bind]. rewrite F1. cbn [option_bind]. rewrite F2. cbn [option_bind].
    rewrite (np_lv _ _ _ _ _ N1). replace (flows fs <? 2147483647) with true by lia. cbn [guard option_bind LayItems.itext]. fold ch. 
    change (level (flows fs + 1) (slots_to (SOff :: lsl s2) s2)) with (level (flows fs + 1) (slots_to (SOff :: lsl s2) s2)) in W2. rewrite W2. cbn [option_bind]. rewrite !app_nil_r. reflexivity.
  - constructor; cbn [then_ level slots_to lv lli lsl lpop lsoon lal ln tl]; [reflexivity|congruence|reflexivity|exact W4|congruence|congruence|reflexivity|reflexivity|].
    assert (K : keyed s3 (less (sure y) 2)).
    { destruct (one_char ch Hc1) as [_ Hs]. specialize (Hs Hc2). match type of W5 with context[str_len ?x] => replace (str_len x) with 1 in W5 by (symmetry; exact Hs) end. destruct y as [|m|m]; cbn [sure less] in *; [destruct w; exact W5|destruct w; (eapply keyed_less; [|exact W5]; lia)..]. }
    apply (keyed_view s3); [cbn; congruence|reflexivity|reflexivity|exact K].
  - cbn [then_ level slots_to lcol]. rewrite W3, L2, C1. rewrite (cadv_line [ch]) by (apply one_char, Hc1). cbn [length]. split; [lia|]. intros Hv. specialize (L9 ltac:(congruence)). lia.
Qed.
Lemma Under_close mp fs li ls y : Under fs li ls y -> room y 1 ->
  exists ls', lstep ls (IClose mp) = Some (ls', itok (IClose mp)) /\ At fs li ls' (less y 1) /\ lal ls' = false /\ ln ls' = Sep true /\ lcol ls' = lcol ls + 1.
Proof.
  intros [H1 H2 H3 H4 H5 H6 H7 H8 H9] Hr. set (ch := if mp then 125 else 93). assert (Hch : breaks_line ch = false /\ ch < 128) by (subst ch; destruct mp; split; [reflexivity|lia|reflexivity|lia]). destruct Hch as [Hc1 Hc2].
  set (s2 := level (lv ls - 1) (slots_to (tl (lsl ls)) (with_slots (lli ls) (SOff :: tl (lsl ls)) ls))).
  assert (Hy : match y with YSoon _ => False | _ => True end) by (destruct y; auto; destruct H9 as (_ & H9 & _); cbn in H9; congruence).
  destruct (walk_ok [ch] s2 y fs) as (s3 & W1 & [S1 S2 S3 S4 S5 S6] & W3 & W4 & W5).
  { eapply keyed_view; [| | |exact H9]; cbn; [lia|reflexivity|exact H6]. }
  { exact H4. }
  { apply calm_one; assumption. }
  exists (then_ false (Sep true) s3). split; [|split; [|split; [reflexivity|split; [reflexivity|]]]].
  - cbn [LayItems.lstep]. unfold opens_gate. rewrite H8. replace (0 <? lv ls) with true by lia. cbn [andb guard option_bind]. unfold flush. replace (lv ls =? 0) with false by lia. rewrite H5. cbn [is_empty option_bind].
    unfold unsave. rewrite H3. cbn [is_live orb]. rewrite H6. cbn [option_bind with_slots lsl tl LayItems.itext]. fold ch. change (walk [ch] (level (lv ls - 1) (slots_to (tl (lsl ls)) (with_slots (lli ls) (SOff :: tl (lsl ls)) ls)))) with (walk [ch] s2).
    rewrite W1. reflexivity.
  - constructor; cbn [then_ lv lli lsl lpop lsoon].
    + rewrite S1. cbn. lia.
    + rewrite S2. exact H2.
    + exact W4.
    + rewrite S3. exact H5.
    + rewrite S5. reflexivity.
    + destruct (one_char ch Hc1) as [_ Hs]. specialize (Hs Hc2). match type of W5 with context[str_len ?x] => replace (str_len x) with 1 in W5 by (symmetry; exact Hs) end. destruct y; cbn [less]; [exact W5|contradiction|exact W5].
  - cbn [then_ lcol]. rewrite W3. apply (cadv_line [ch]). apply one_char, Hc1.
Qed.
Lemma Under_At f fs li ls : Under fs li ls YNo -> blk f = false -> At (f :: fs) li ls YNo.
Proof.
  intros [H1 H2 H3 H4 H5 H6 H7 H8 H9] Hf. constructor; [cbn [flows]; rewrite Hf, H1; lia|exact H2| |exact H5|exact H6|].
  - rewrite H3. cbn [below]. rewrite Hf. split; [destruct f as [| | | |[]]; auto|exact H4].
  - destruct H9 as [H9 _]. split; [|exact H6]. rewrite H3. exact H9.
Qed.
(** Tokens between the entries of a flow collection. *)
Lemma dead_cons s r : live (s :: r) = false -> is_live s = false /\ live r = false.
Proof. cbn [live existsb]. intros H. apply orb_false_iff in H. exact H. Qed.
Lemma At_unsave f fs li ls : At (f :: fs) li ls YNo -> blk f = false -> exists s2, (do s1 <- flush ls; unsave s1) = Some s2 /\ At (f :: fs) li s2 YNo /\ lcol s2 = lcol ls /\ lsl s2 = SOff :: tl (lsl ls).
Proof.
  intros [H1 H2 H3 H4 H5 H6] Hf. cbn [flows] in H1. rewrite Hf in H1. unfold flush. replace (lv ls =? 0) with false by lia. rewrite H4. cbn [is_empty option_bind].
  destruct (below_cons _ _ H3) as (s & r & El). unfold unsave. rewrite El, H5. destruct H6 as [H6 _]. rewrite El in H6. apply dead_cons in H6. destruct H6 as [H6 H6']. rewrite H6. cbn [orb].
  eexists. split; [reflexivity|]. split; [|split; reflexivity]. constructor; cbn [with_slots lv lli lsl lpop lsoon]; [cbn [flows]; rewrite Hf; exact H1|exact H2| |exact H4|reflexivity|split; [exact H6'|reflexivity]].
  rewrite El in H3. apply (below_off (f :: fs) s r H3).
Qed.
Lemma At_walk fs li ls w : At fs li ls YNo -> exists s3, walk w ls = Some s3 /\ At fs li s3 YNo /\ lcol s3 = cadv (lcol ls) w /\ lal s3 = lal ls /\ ln s3 = ln ls.
Proof.
  intros [H1 H2 H3 H4 H5 H6]. destruct (walk_ok w ls YNo fs H6 H3 Logic.I) as (s3 & W1 & [S1 S2 S3 S4 S5 S6] & W3 & W4 & W5). exists s3. split; [exact W1|]. split; [|auto]. constructor; try congruence; assumption.
Qed.
Lemma At_then fs li ls y a n : At fs li ls y -> At fs li (then_ a n ls) y.
Proof. intros [H1 H2 H3 H4 H5 H6]. constructor; auto. Qed.
Lemma At_comma f fs li ls : At (f :: fs) li ls YNo -> blk f = false -> opens_gate ls GSep = true ->
  exists ls', lstep ls IComma = Some (ls', [TFlowEntry]) /\ At (f :: fs) li ls' YNo /\ lal ls' = true /\ ln ls' = Free.
Proof.
  intros H Hf Hg. destruct (At_unsave _ _ _ _ H Hf) as (s2 & E2 & H2 & C2 & _). destruct (At_walk _ _ _ [44] H2) as (s3 & W1 & H3 & _). exists (then_ true Free s3). split; [|split; [apply At_then, H3|split; reflexivity]].
  cbn [LayItems.lstep]. rewrite Hg. pose proof (at_lv _ _ _ _ H) as Hv. cbn [flows] in Hv. rewrite Hf in Hv. replace (0 <? lv ls) with true by lia. cbn [andb guard option_bind]. revert E2. destruct (flush ls) as [s1|]; [|discriminate]. cbn [option_bind]. intros ->. cbn [option_bind LayItems.itext]. rewrite W1. reflexivity.
Qed.
Lemma At_close mp f fs li ls : At (f :: fs) li ls YNo -> blk f = false -> opens_gate ls GSep = true ->
  exists ls', lstep ls (IClose mp) = Some (ls', itok (IClose mp)) /\ At fs li ls' YNo /\ lal ls' = false /\ ln ls' = Sep true.
Proof.
  intros H Hf Hg. destruct (At_unsave _ _ _ _ H Hf) as (s2 & E2 & [A1 A2 A3 A4 A5 A6] & C2 & T2). set (ch := if mp then 125 else 93).
  assert (H' : At fs li (level (lv ls - 1) (slots_to (tl (lsl s2)) s2)) YNo).
  { cbn [flows] in A1. rewrite Hf in A1. pose proof (at_lv _ _ _ _ H) as Hv. cbn [flows] in Hv. rewrite Hf in Hv. constructor; cbn [level slots_to lv lli lsl lpop lsoon]; [lia|exact A2| |exact A4|exact A5|].
    - cbn [below] in A3. rewrite Hf in A3. destruct (lsl s2); [contradiction|apply A3].
    - destruct A6 as [A6 A6']. split; [|exact A6']. cbn [lsl]. destruct (lsl s2); [exact A6|]. apply dead_cons in A6. apply A6. }
  destruct (At_walk _ _ _ [ch] H') as (s3 & W1 & H3 & _). exists (then_ false (Sep true) s3). split; [|split; [apply At_then, H3|split; reflexivity]].
  cbn [LayItems.lstep]. rewrite Hg. pose proof (at_lv _ _ _ _ H) as Hv. cbn [flows] in Hv. rewrite Hf in Hv. replace (0 <? lv ls) with true by lia. cbn [andb guard option_bind]. revert E2. destruct (flush ls) as [s1|]; [|discriminate]. cbn [option_bind]. intros ->. cbn [option_bind LayItems.itext]. fold ch. rewrite W1. reflexivity.
Qed.
Lemma At_key fs li ls : At (LKey false :: fs) li ls YNo -> opens_gate ls GNode = true ->
  exists ls', lstep ls IKey = Some (ls', [Base.TKey]) /\ At (LVal false :: fs) li ls' YNo /\ lal ls' = false /\ ln ls' = Blank.
Proof.
  intros H Hg. destruct (At_unsave _ _ _ _ H eq_refl) as (s2 & E2 & H2 & C2 & T2). 
  assert (H2' : At (LVal false :: fs) li s2 YNo).
  { destruct H2 as [A1 A2 A3 A4 A5 A6]. constructor; auto. rewrite T2 in *. cbn [below blk] in *. split; [reflexivity|apply A3]. }
  destruct (At_walk _ _ _ [63] H2') as (s3 & W1 & H3 & _). exists (then_ false Blank s3). split; [|split; [apply At_then, H3|split; reflexivity]].
  cbn [LayItems.lstep]. rewrite Hg. pose proof (at_lv _ _ _ _ H) as Hv. cbn [flows blk] in Hv. replace (lv ls =? 0) with false by lia. cbn [guard option_bind]. revert E2. destruct (flush ls) as [s1|]; [|discriminate]. cbn [option_bind]. intros ->. cbn [option_bind LayItems.itext]. rewrite W1. reflexivity.
Qed.
Lemma At_value fs li ls : At (LVal false :: fs) li ls YNo -> opens_gate ls GVal = true ->
  exists ls', lstep ls IValue = Some (ls', [TValue]) /\ At (LKey false :: fs) li ls' YNo /\ lal ls' = false /\ ln ls' = Blank.
Proof.
  intros H Hg. destruct H as [A1 A2 A3 A4 A5 A6].
  assert (H2' : At (LKey false :: fs) li ls YNo).
  { constructor; auto. cbn [below blk] in *. destruct (lsl ls); [contradiction|]. split; [exact Logic.I|apply A3]. }
  destruct (At_walk _ _ _ [58] H2') as (s3 & W1 & H3 & _). exists (then_ false Blank s3). split; [|split; [apply At_then, H3|split; reflexivity]].
  cbn [LayItems.lstep]. rewrite Hg, A5. cbn [flows blk] in A1. cbn [negb andb guard option_bind]. unfold flush. replace (lv ls =? 0) with false by lia. rewrite A4. cbn [is_empty option_bind].
  cbn [below blk] in A3. destruct (lsl ls) as [|s r]; [contradiction|]. destruct A3 as [-> _]. cbn [guard option_bind LayItems.itext]. rewrite W1. reflexivity.
Qed.
(** After a simple key. *)
Lemma At_simple fs fs' li ls n : At fs li ls (YLive n) -> 1 <= n -> opens_gate ls GVal = true -> (lv ls = 0 -> (LayItems.top li <= Z.of_N (lcol ls))%Z) -> flows fs' = flows fs -> (forall s r, below fs (s :: r) -> below fs' (SOff :: r)) ->
  exists ls', lstep ls IValue = Some (ls', [TValue]) /\ At fs' li ls' YNo /\ lal ls' = false /\ ln ls' = Blank /\ (lv ls' = 0 -> (LayItems.top li <= Z.of_N (lcol ls'))%Z).
Proof.
  intros [A1 A2 A3 A4 A5 A6] Hn Hg Hc Hfl Hbl. destruct A6 as (_ & k & c & u & r & El & Hr & Hu & Hv).
  assert (F : flush ls = Some (LS (lv ls) (lcol ls) (lli ls) [] (lal ls) (lsl ls) (lsoon ls) (ln ls))).
  { unfold flush. destruct (lv ls =? 0) eqn:E; [rewrite A4; cbn [forallb andb]; rewrite A2; specialize (Hc ltac:(lia)); replace (_ <=? _)%Z with true by lia; reflexivity|]. rewrite A4. cbn [is_empty]. rewrite <- A4. destruct ls; reflexivity. }
  set (s1 := LS (lv ls) (lcol ls) (lli ls) [] (lal ls) (lsl ls) (lsoon ls) (ln ls)) in *.
  assert (H' : At fs' li (slots_to (SOff :: r) s1) YNo).
  { constructor; cbn; [congruence|exact A2|apply (Hbl (SLive k c u)); rewrite <- El; exact A3|reflexivity|exact A5|]. split; [exact Hr|exact A5]. }
  destruct (At_walk _ _ _ [58] H') as (s3 & W1 & H3 & W3 & _). exists (then_ false Blank s3). split; [|split; [apply At_then, H3|split; [reflexivity|split; [reflexivity|]]]].
  - cbn [LayItems.lstep]. rewrite Hg, A5. cbn [negb andb guard option_bind]. rewrite F. cbn [option_bind]. change (lsl s1) with (lsl ls). rewrite El, Hv. replace (Bool.eqb _ _) with true by (destruct k; reflexivity). cbn [guard option_bind LayItems.itext]. rewrite W1. reflexivity.
  - cbn [then_ lv lcol]. rewrite W3. intros Hz. rewrite (cadv_line [58] _ eq_refl). pose proof (at_lv _ _ _ _ H3) as Hl3. specialize (Hc ltac:(congruence)). cbn. lia.
Qed.
(** Blanks where no simple key is under way. *)
Lemma At_space fs li ls : At fs li ls YNo -> unlined (ln ls) -> exists ls', lstep ls ISp = Some (ls', []) /\ At fs li ls' YNo /\ lal ls' = lal ls /\ ln ls' = spaced (ln ls) /\ lcol ls' = lcol ls + 1.
Proof.
  intros H Hu. destruct (At_walk _ _ _ [32] H) as (s3 & W1 & H3 & W3 & W4 & W5). eexists. split; [cbn [LayItems.lstep]; rewrite (unlined_space _ Hu); cbn [guard option_bind]; rewrite W1; reflexivity|]. split; [apply At_then, H3|]. split; [exact W4|]. split; [reflexivity|]. exact W3.
Qed.
Lemma lf_break x : has_break lf = true /\ cadv x lf = 0.
Proof. destruct Hlf as [-> |[-> | ->]]; split; reflexivity. Qed.
(** The need after spaces, or after a line break and spaces. *)
Definition lines_to (n n' : need) : Prop := match n with Lined _ _ => exists cl, n' = Lined cl true | _ => n' = n end.
Definition space_for (ls : lstate) (n : nat) : Prop := match ln ls with Lined _ b => n = O \/ b = true /\ (Z.of_N (lcol ls) + Z.of_nat n <= LayItems.top (lpop ls ++ lli ls))%Z | Free | Gapped true true => True | _ => False end.
Lemma run_spaces n : forall ls, live (lsl ls) = false -> space_for ls n ->
  exists ls', lrun ls (repeat ISp n) = Some (ls', []) /\ lv ls' = lv ls /\ lli ls' = lli ls /\ lpop ls' = lpop ls /\ lal ls' = lal ls /\ lsoon ls' = lsoon ls /\
    (ln ls' = ln ls \/ exists cl cl', ln ls = Lined cl true /\ ln ls' = Lined cl' true) /\ lcol ls' = lcol ls + N.of_nat n /\ live (lsl ls') = false /\ (lsl ls = map (fun _ => SOff) (lsl ls) -> lsl ls' = lsl ls).
Proof.
  induction n as [|n IH]; intros ls Hl Hn; cbn [repeat LayScan.lrun].
  - exists ls. split; [reflexivity|]. do 5 (split; [reflexivity|]). split; [auto|]. split; [lia|]. auto.
  - set (l1 := LS (lv ls) (lcol ls + 1) (lli ls) (lpop ls) (lal ls) (map (bump (str_len [32])) (lsl ls)) (lsoon ls) (spaced (ln ls))).
    assert (E1 : lstep ls ISp = Some (l1, [])).
    { cbn [LayItems.lstep]. replace (may_space ls) with true by (unfold may_space; unfold space_for in Hn; destruct (ln ls) as [| | | |? []]; auto; cbn [andb]; destruct Hn as [Hn|[Hb Hn]]; try discriminate; lia).
      unfold walk. change (has_break [32]) with false. cbv iota zeta. rewrite (dead_fresh _ _ Hl). reflexivity. }
    rewrite E1. cbn [option_bind]. destruct (IH l1) as (ls' & E & S1 & S2 & S3 & S4 & S5 & S6 & C & L & M).
    { subst l1. cbn [lsl]. rewrite live_bump. exact Hl. }
    { subst l1. unfold space_for in *. cbn [ln lcol lpop lli]. destruct (ln ls) as [| | |[] []|cl b]; cbn [spaced]; auto. right. destruct Hn as [Hn|[Hb Hn]]; [discriminate|]. split; [exact Hb|lia]. }
    rewrite E. cbn [option_bind app]. exists ls'. subst l1. cbn [lv lli lpop lal lsoon ln lcol lsl] in *. split; [reflexivity|]. do 5 (split; [assumption|]). split; [|split; [lia|split; [exact L|]]].
    + unfold space_for in Hn. destruct (ln ls) as [| | |[] []|cl b]; cbn [spaced] in S6; try contradiction Hn; try (destruct S6 as [S6|(? & ? & S6 & _)]; [left; exact S6|discriminate S6]).
      right. assert (Hb : b = true) by (destruct Hn as [Hn|[Hb Hn]]; [discriminate|exact Hb]). subst b. exists cl. destruct S6 as [S6|(? & ? & _ & S6)]; eauto.
    + intros Hs. assert (Hb : map (bump (str_len [32])) (lsl ls) = lsl ls).
      { rewrite Hs, map_map. apply map_ext. reflexivity. }
      rewrite Hb in M. apply M, Hs.
Qed.
Definition breaks_to (n n' : need) : Prop := match n with Lined _ _ => exists cl, n' = Lined cl true | _ => n' = broken_ n end.
Lemma breaks_un n n' : unlined n -> breaks_to n n' -> n' = broken_ n. Proof. destruct n; cbn; auto; contradiction. Qed.
Definition break_for (ls : lstate) (n : nat) : Prop := match ln ls with Lined cl _ => cl = false /\ (n = O \/ (Z.of_nat n <= LayItems.top (lpop ls ++ lli ls))%Z) | _ => True end.
Lemma break_un ls n : unlined (ln ls) -> break_for ls n. Proof. unfold break_for. destruct (ln ls); auto; contradiction. Qed.
Lemma run_break n ls : keyed ls YNo -> break_for ls n -> exists ls', lrun ls (IBr :: repeat ISp n) = Some (ls', []) /\ lv ls' = lv ls /\ lli ls' = lli ls /\ lpop ls' = lpop ls /\ lsoon ls' = false /\
  lal ls' = (if lv ls =? 0 then true else lal ls) /\ breaks_to (ln ls) (ln ls') /\ lcol ls' = N.of_nat n /\ lsl ls' = map (fun _ => SOff) (lsl ls).
Proof.
  intros [Hl Hs] Hb. destruct (lf_break (lcol ls)) as [B1 B2]. set (l1 := LS (lv ls) 0 (lli ls) (lpop ls) (if lv ls =? 0 then true else lal ls) (map (fun _ => SOff) (lsl ls)) (lsoon ls) (broken_ (ln ls))).
  assert (E1 : lstep ls IBr = Some (l1, [])).
  { cbn [LayItems.lstep]. replace (may_break ls) with true by (unfold may_break; unfold break_for in Hb; destruct (ln ls); auto; destruct Hb as [-> _]; reflexivity). unfold walk. rewrite B1, B2, Hl. reflexivity. }
  cbn [LayScan.lrun]. rewrite E1. cbn [option_bind]. destruct (run_spaces n l1) as (ls' & E & S1 & S2 & S3 & S4 & S5 & S6 & C & L & M).
  { apply live_off. }
  { subst l1. unfold space_for, break_for in *. cbn [ln lcol lpop lli]. destruct (ln ls); cbn; auto. destruct Hb as [_ [Hb|Hb]]; [auto|right; split; [reflexivity|lia]]. }
  rewrite E. cbn [option_bind app]. exists ls'. split; [reflexivity|]. subst l1. cbn [lv lli lpop lal lsoon ln lcol lsl] in *. split; [exact S1|]. split; [exact S2|]. split; [exact S3|]. split; [congruence|]. split; [exact S4|].
  split; [|split; [lia|apply M; rewrite map_map; reflexivity]]. unfold breaks_to. destruct (ln ls); cbn [broken_] in S6; (destruct S6 as [S6|(? & ? & S6 & S7)]; [|try discriminate S6]); eauto.
Qed.
Lemma At_break n fs li ls : At fs li ls YNo -> unlined (ln ls) -> exists ls', lrun ls (IBr :: repeat ISp n) = Some (ls', []) /\ At fs li ls' YNo /\ lal ls' = (if lv ls =? 0 then true else lal ls) /\ ln ls' = broken_ (ln ls) /\ lcol ls' = N.of_nat n.
Proof.
  intros [H1 H2 H3 H4 H5 H6] Hu. destruct (run_break n ls H6 (break_un _ _ Hu)) as (ls' & E & L1 & L2 & L3 & L4 & L5 & L6 & L7 & L8). apply (breaks_un _ _ Hu) in L6. exists ls'. split; [exact E|]. split; [|auto].
  constructor; try congruence; [rewrite L8; apply below_map; auto|]. split; [rewrite L8; apply live_off|exact L4].
Qed.

(** *** Block collections *)
(** Between the tokens of block collections. *)
Record Bk (li : list N) (ls : lstate) : Prop := Bkk { bk_lv : lv ls = 0; bk_li : lli ls = li; bk_sl : exists s, lsl ls = [s]; bk_pop : Forall (fun p => (LayItems.top li < Z.of_N p)%Z) (lpop ls); bk_key : keyed ls YNo }.
(** At the place of a token of a block collection. *)
Record Start (li : list N) (n : N) (ls : lstate) : Prop := Stt {
  st_lv : lv ls = 0; st_li : lli ls = li; st_sl : exists s, lsl ls = [s]; st_pop : Forall (fun p => n < p) (lpop ls); st_key : keyed ls YNo; st_al : lal ls = true; st_col : lcol ls = n;
  st_gate : opens_gate ls GNode = true; st_le : (LayItems.top li <= Z.of_N n)%Z }.
Lemma line_gate ls : lv ls = 0 -> Z.of_N (lcol ls) = LayItems.top (lli ls) -> Forall (fun p => (LayItems.top (lli ls) < Z.of_N p)%Z) (lpop ls) -> (Z.of_N (lcol ls) <=? LayItems.top (lpop ls ++ lli ls))%Z = true.
Proof. intros _ H1 H2. destruct (lpop ls) as [|p q]; cbn [app LayItems.top]; [|apply Forall_inv in H2]; lia. Qed.
Lemma Bk_break n li ls : Bk li ls -> may_break ls = true -> (LayItems.top li = Z.of_nat n \/ lpop ls = [] /\ (LayItems.top li <= Z.of_nat n)%Z /\ settled (ln ls)) ->
  exists ls', lrun ls (IBr :: repeat ISp n) = Some (ls', []) /\ Start li (N.of_nat n) ls' /\ lsl ls' = [SOff].
Proof.
  intros [H1 H2 (s & H3) H4 H5] Hm Hn. assert (Hb : break_for ls n).
  { unfold break_for, may_break in *. destruct (ln ls) as [| | | |cl b] eqn:En; auto. split; [destruct cl; [discriminate|reflexivity]|]. destruct Hn as [Hn|(_ & _ & Hn)]; [|contradiction Hn].
    right. destruct (lpop ls) as [|p q]; cbn [app LayItems.top]; [rewrite H2; lia|apply Forall_inv in H4; lia]. }
  destruct (run_break n ls H5 Hb) as (ls' & E & L1 & L2 & L3 & L4 & L5 & L6 & L7 & L8). exists ls'. split; [exact E|]. rewrite H3 in L8. split; [|exact L8].
  constructor; [congruence|congruence|exists SOff; exact L8| |split; [rewrite L8; reflexivity|exact L4]|rewrite L5, H1; reflexivity|exact L7| |destruct Hn as [Hn|(_ & Hn & _)]; lia].
  - rewrite L3. destruct Hn as [Hn|(-> & _)]; [|constructor]. eapply Forall_impl; [|exact H4]. cbv beta. intros p. lia.
  - assert (G : ln ls = ln ls -> LayItems.top li = Z.of_nat n -> (Z.of_N (lcol ls') <=? LayItems.top (lpop ls' ++ lli ls'))%Z = true).
    { intros _ Hn'. apply line_gate; [congruence|rewrite L7, L2, H2; lia|rewrite L3, L2, H2; exact H4]. }
    unfold opens_gate. destruct (ln ls) as [| | |a b|cl b] eqn:En; cbn [breaks_to broken_] in L6; [rewrite L6; reflexivity..| |].
    + rewrite L6. destruct Hn as [Hn|(_ & _ & [])]. rewrite L1, H1. cbn [N.eqb andb]. apply G; auto.
    + destruct L6 as [cl' ->]. destruct Hn as [Hn|(_ & _ & [])]. rewrite L1, H1. cbn [N.eqb andb]. apply G; auto.
Qed.
(** The spaces at the start of a line that a literal scalar has begun. *)
Lemma Bk_spaces n li ls : Bk li ls -> (exists cl, ln ls = Lined cl true) -> lcol ls = 0 -> lal ls = true -> lsl ls = [SOff] -> LayItems.top li = Z.of_nat n ->
  exists ls', lrun ls (repeat ISp n) = Some (ls', []) /\ Start li (N.of_nat n) ls' /\ lsl ls' = [SOff].
Proof.
  intros [H1 H2 _ H4 H5] [cl Hl] Hc Ha Hs Hn. destruct (run_spaces n ls (proj1 H5)) as (ls' & E & S1 & S2 & S3 & S4 & S5 & S6 & C & L & M).
  { unfold space_for. rewrite Hl. right. split; [reflexivity|]. rewrite Hc. destruct (lpop ls) as [|p q]; cbn [app LayItems.top]; [rewrite H2; lia|apply Forall_inv in H4; lia]. }
  rewrite Hs in M. specialize (M eq_refl). exists ls'. split; [exact E|]. split; [|exact M]. rewrite Hc, N.add_0_l in C.
  constructor; [congruence|congruence|exists SOff; exact M| |split; [exact L|rewrite S5; apply H5]|congruence|exact C| |lia].
  - rewrite S3. eapply Forall_impl; [|exact H4]. cbv beta. intros p. lia.
  - assert (E' : exists cl', ln ls' = Lined cl' true) by (destruct S6 as [S6|(? & cl' & _ & S6)]; rewrite S6; eauto). destruct E' as [cl' E']. unfold opens_gate. rewrite E', S1, H1. cbn [N.eqb andb].
    apply line_gate; [congruence|rewrite C, S2, H2; lia|rewrite S3, S2, H2; exact H4].
Qed.
Lemma Start_flush li n ls : Start li n ls -> flush ls = Some (LS 0 n li [] true (lsl ls) false (ln ls)).
Proof.
  intros [H1 H2 H3 H4 H5 H6 H7 H8 H9]. unfold flush. rewrite H1, H2, H6, H7, (proj2 H5). cbn [N.eqb].
  replace (forallb (fun i => n <? i) (lpop ls)) with true; [replace (_ <=? _)%Z with true by lia; reflexivity|]. symmetry. apply forallb_forall. intros x Hx. rewrite Forall_forall in H4. specialize (H4 x Hx). lia.
Qed.
(** The columns after a block token at column [n]. *)
Definition rolled (li : list N) (n : N) : list N := if (LayItems.top li <? Z.of_N n)%Z then n :: li else li.
Lemma rolled_top li n : (LayItems.top li <= Z.of_N n)%Z -> LayItems.top (rolled li n) = Z.of_N n.
Proof. intros H. unfold rolled. destruct (_ <? _)%Z eqn:E; cbn; lia. Qed.
Lemma Start_roll d li n ls : Start li n ls -> n <= 2147483647 -> roll d (LS 0 n li [] true (lsl ls) false (ln ls)) = Some (LS 0 n (rolled li n) [] true (lsl ls) false (ln ls), if (LayItems.top li <? Z.of_N n)%Z then [d] else []).
Proof.
  intros H Hn. pose proof (st_le _ _ _ H) as Hl. unfold roll, rolled. cbn [lal negb lli lcol lv lpop lsl lsoon ln]. destruct (_ <? _)%Z eqn:E; [replace (n <=? 2147483647) with true by lia; reflexivity|]. replace (_ =? _)%Z with true by lia. reflexivity.
Qed.
Lemma block_walk f r li n q a nd w (fs : list lframe) ls0 : fs = f :: r -> blk f = true -> LayItems.top li = Z.of_N n -> has_break w = false -> w <> [] -> ls0 = LS 0 n li [] true [SOff] false q ->
  settled nd ->
  exists s3, walk w ls0 = Some s3 /\ NP false fs li (then_ a nd s3) YNo /\ pend (then_ a nd s3) = [] /\ Z.of_N (lcol s3) = (LayItems.top li + Z.of_nat (length w))%Z.
Proof.
  intros -> Hf Ht Hw Hw0 -> Hnd. assert (A : At (f :: r) li (LS 0 n li [] true [SOff] false q) YNo) by (constructor; cbn; rewrite ?Hf; try reflexivity; [eexists; reflexivity|split; reflexivity]).
  destruct (At_walk _ _ _ w A) as (s3 & W1 & H3 & W3 & W4 & W5). cbn [lcol] in W3. rewrite (cadv_line _ _ Hw) in W3. exists s3. split; [exact W1|].
  assert (Hlen : (1 <= length w)%nat) by (destruct w; [congruence|cbn; lia]).
  split; [|split; [unfold pend; cbn [then_ lsoon]; rewrite (at_soon _ _ _ _ H3); reflexivity|lia]].
  destruct H3 as [A1 A2 A3 A4 A5 A6]. constructor; cbn [then_ lv lli lsl lpop lsoon lal ln lcol]; [exact A1|unfold eli; cbn [then_ lsoon lli]; rewrite A5; exact A2|exact A3|exact Hnd|exact A6|intros _; rewrite A2, W3; lia|left; exact A4| |].
  - intros _ _. rewrite A2, W3. lia.
  - intros _. destruct f as [| | | |[]]; try exact Logic.I. discriminate Hf.
Qed.
Lemma Start_dead li n ls : Start li n ls -> exists s, lsl ls = [s] /\ is_live s = false.
Proof. intros H. destruct (st_sl _ _ _ H) as (s & E). exists s. split; [exact E|]. destruct (st_key _ _ _ H) as [K _]. rewrite E in K. apply dead_cons in K. apply K. Qed.
Lemma Start_dash f r li n ls : Start li n ls -> n <= 2147483647 -> blk f = true ->
  exists ls', lstep ls IDash = Some (ls', (if (LayItems.top li <? Z.of_N n)%Z then [TBlockSequenceStart] else []) ++ [TBlockEntry]) /\ NP false (f :: r) (rolled li n) ls' YNo /\ pend ls' = [] /\ lal ls' = true /\ lcol ls' = n + 1.
Proof.
  intros H Hn Hf. destruct (Start_dead _ _ _ H) as (s & Es & Hs).
  destruct (block_walk f r (rolled li n) n (ln ls) true Blank [45] (f :: r) _ eq_refl Hf (rolled_top _ _ (st_le _ _ _ H)) eq_refl ltac:(discriminate) eq_refl Logic.I) as (s3 & W1 & W2 & W3 & W4).
  exists (then_ true Blank s3). split; [|split; [exact W2|split; [exact W3|split; [reflexivity|]]]].
  - cbn [LayItems.lstep]. rewrite (st_gate _ _ _ H), (st_lv _ _ _ H). cbn [N.eqb andb guard option_bind]. rewrite (Start_flush _ _ _ H). cbn [option_bind]. rewrite (Start_roll _ _ _ _ H Hn). cbn [option_bind]. unfold unsave. rewrite Es. cbn [lsl lsoon]. rewrite Hs. cbn [orb option_bind with_slots lli lv lcol lpop lal ln LayItems.itext]. match goal with |- option_bind ?a _ = _ => replace a with (Some s3) by (symmetry; exact W1) end. reflexivity.
  - cbn [then_ lcol]. rewrite (rolled_top _ _ (st_le _ _ _ H)) in W4. cbn [length] in W4. lia.
Qed.
Lemma Start_key f r li n ls : Start li n ls -> n <= 2147483647 -> blk f = true ->
  exists ls', lstep ls IKey = Some (ls', (if (LayItems.top li <? Z.of_N n)%Z then [TBlockMappingStart] else []) ++ [Base.TKey]) /\ NP false (f :: r) (rolled li n) ls' YNo /\ pend ls' = [] /\ lal ls' = true /\ lcol ls' = n + 1.
Proof.
  intros H Hn Hf. destruct (Start_dead _ _ _ H) as (s & Es & Hs).
  destruct (block_walk f r (rolled li n) n (ln ls) true Blank [63] (f :: r) _ eq_refl Hf (rolled_top _ _ (st_le _ _ _ H)) eq_refl ltac:(discriminate) eq_refl Logic.I) as (s3 & W1 & W2 & W3 & W4).
  exists (then_ true Blank s3). split; [|split; [exact W2|split; [exact W3|split; [reflexivity|]]]].
  - cbn [LayItems.lstep]. rewrite (st_gate _ _ _ H), (st_lv _ _ _ H). cbn [N.eqb andb guard option_bind]. rewrite (Start_flush _ _ _ H). cbn [option_bind]. rewrite (Start_roll _ _ _ _ H Hn). cbn [option_bind]. unfold unsave. rewrite Es. cbn [lsl lsoon]. rewrite Hs. cbn [orb option_bind with_slots lli lv lcol lpop lal ln LayItems.itext]. match goal with |- option_bind ?a _ = _ => replace a with (Some s3) by (symmetry; exact W1) end. reflexivity.
  - cbn [then_ lcol]. rewrite (rolled_top _ _ (st_le _ _ _ H)) in W4. cbn [length] in W4. lia.
Qed.
Lemma Start_value f r li n ls : Start li n ls -> lsl ls = [SOff] -> LayItems.top li = Z.of_N n -> blk f = true ->
  exists ls', lstep ls IValue = Some (ls', [TValue]) /\ NP false (f :: r) li ls' YNo /\ pend ls' = [] /\ lal ls' = true /\ lcol ls' = n + 1.
Proof.
  intros H Es Ht Hf.
  destruct (block_walk f r li n (ln ls) true Blank [58] (f :: r) _ eq_refl Hf Ht eq_refl ltac:(discriminate) eq_refl Logic.I) as (s3 & W1 & W2 & W3 & W4).
  exists (then_ true Blank s3). split; [|split; [exact W2|split; [exact W3|split; [reflexivity|]]]].
  - pose proof (Start_flush _ _ _ H) as F. rewrite Es in F. cbn [LayItems.lstep]. rewrite (proj2 (st_key _ _ _ H)), (st_lv _ _ _ H), (st_al _ _ _ H), (st_col _ _ _ H), F.
    assert (G : opens_gate ls GVal = true) by (pose proof (st_gate _ _ _ H) as G; unfold opens_gate in *; destruct (ln ls); try discriminate G; first [reflexivity|exact G]). rewrite G. cbn [N.eqb negb andb guard option_bind lsl lli]. rewrite Ht, Z.eqb_refl. cbn [guard option_bind LayItems.itext]. match goal with |- option_bind ?a _ = _ => replace a with (Some s3) by (symmetry; exact W1) end. reflexivity.
  - cbn [then_ lcol]. cbn [length] in W4. lia.
Qed.
Lemma Start_mark f r li n ls : Start li n ls -> n <= 2147483647 -> blk f = true ->
  exists ls', lstep ls IMark = Some (ls', []) /\ NP true (f :: r) (rolled li n) ls' (YSoon 1024) /\ pend ls = [] /\ pend ls' = (if (LayItems.top li <? Z.of_N n)%Z then [TBlockMappingStart] else []) ++ [Base.TKey].
Proof.
  intros [H1 H2 (s & H3) H4 [H5 H5'] H6 H7 H8 H9] Hn Hf. cbn [LayItems.lstep]. rewrite H5, H5'. cbn [negb andb guard option_bind]. set (ls' := LS _ _ _ _ _ _ _ _). exists ls'. split; [reflexivity|].
  assert (K : kind_of ls' = if (LayItems.top li <? Z.of_N n)%Z then KRoll else KSame) by (unfold kind_of; subst ls'; cbn [lv lli lcol]; rewrite H1, H2, H7; reflexivity).
  assert (P : pend ls' = (if (LayItems.top li <? Z.of_N n)%Z then [TBlockMappingStart] else []) ++ [Base.TKey]) by (unfold pend; cbn [ls' lsoon]; fold ls'; rewrite K; destruct (_ <? _)%Z; reflexivity).
  split; [|split; [unfold pend; rewrite H5'; reflexivity|exact P]]. constructor.
  - subst ls'. cbn [lv flows]. rewrite Hf. exact H1.
  - unfold eli. cbn [ls' lsoon]. fold ls'. rewrite K. unfold rolled. subst ls'. cbn [lcol lli]. destruct (_ <? _)%Z; congruence.
  - subst ls'. cbn [lsl below]. rewrite Hf. eauto.
  - exact H8.
  - subst ls'. cbn [keyed lsl lsoon]. split; [exact H5|]. split; [reflexivity|lia].
  - subst ls'. cbn [lv lli lcol]. rewrite H2, H7. intros _. exact H9.
  - right. split; [reflexivity|]. split; [exact H1|]. subst ls'. cbn [lcol lpop]. rewrite H7. exact H4.
  - split; [exact H6|]. intros _. split; [reflexivity|]. subst ls'. cbn [lcol]. rewrite H7. exact Hn.
  - intros _. destruct f as [| | | |[]]; try exact Logic.I. discriminate Hf.
Qed.
(** A simple key of a flow mapping. *)
Lemma At_mark fs li ls : At (LKey false :: fs) li ls YNo -> lal ls = true -> ln ls = Free ->
  exists ls', lstep ls IMark = Some (ls', []) /\ (forall w, NP w (LKey false :: fs) li ls' (YSoon 1024)) /\ pend ls = [] /\ pend ls' = [Base.TKey].
Proof.
  intros [H1 H2 H3 H4 H5 H6] Ha Hn. destruct H6 as [H6 _]. cbn [LayItems.lstep]. rewrite H6, H5. cbn [negb andb guard option_bind]. set (ls' := LS _ _ _ _ _ _ _ _). exists ls'. split; [reflexivity|]. cbn [flows blk] in H1.
  assert (K : kind_of ls' = KFlow) by (unfold kind_of; subst ls'; cbn [lv lli lcol]; replace (lv ls =? 0) with false by lia; reflexivity).
  split; [|split; [unfold pend; rewrite H5; reflexivity|unfold pend; cbn [ls' lsoon]; fold ls'; rewrite K; reflexivity]]. intros w. constructor.
  - exact H1.
  - unfold eli. cbn [ls' lsoon]. fold ls'. rewrite K. exact H2.
  - exact H3.
  - subst ls'. destruct w; [unfold opens_gate; cbn [ln]; rewrite Hn; reflexivity|]. cbn [ln]. rewrite Hn. exact Logic.I.
  - subst ls'. cbn [keyed lsl lsoon]. split; [exact H6|]. split; [reflexivity|lia].
  - subst ls'. cbn [lv]. lia.
  - left. exact H4.
  - split; [exact Ha|]. subst ls'. cbn [lv]. lia.
  - intros _. exact Logic.I.
Qed.
End lay.
