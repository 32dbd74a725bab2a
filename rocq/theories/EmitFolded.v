(** EmitFolded.v -- the text of the folded block scalars the emitter writes. *)
From Coq Require Import Lia ZifyBool ZifyNat ZifyN Bool.
From Verif Require Import Base Utf Chars State Reader Scanner EState Emitter EmitText EmitScalar RoundScan Spec_Styles EmitQuoted EmitSingle Spec_RoundTrip RoundPlain RoundLiteral EmitLiteral Spec_Folded.
Open Scope N_scope.

Lemma breaking_c x : breaking x = is_break_c x. Proof. unfold breaking, is_break_c. lia. Qed.
(** No space before a line break or at the end. *)
Fixpoint tidy (l : str) : Prop :=
  match l with [] => True | x :: r => (x = 32 -> match r with [] => False | y :: _ => is_break_c y = false end) /\ tidy r end.
Lemma block_tidy u v : block_text u v -> tidy v.
Proof.
  intros (_ & H1 & H2). induction v as [|x r IH]; [exact Logic.I|]. split.
  - intros ->. destruct r as [|y r]; [exact (H2 [] 32 eq_refl eq_refl)|]. destruct (is_break_c y) eqn:E; [|reflexivity]. destruct (H1 [] 32 r y eq_refl eq_refl). apply break_c_line, E.
  - apply IH; [intros a y b z E; apply (H1 (x :: a) y b z); rewrite E; reflexivity|intros a y E; apply (H2 (x :: a) y); rewrite E; reflexivity].
Qed.
Lemma drop_head bs m : forallb is_break_c bs = true -> match m with c :: _ => is_break_c c = false | [] => True end -> drop_breaks (bs ++ m) = m.
Proof. induction bs as [|b bs IH]; cbn [app forallb drop_breaks]; [intros _; destruct m; cbn; [reflexivity|intros ->; reflexivity]|]. intros H Hm. apply andb_true_iff in H. rewrite (proj1 H). apply IH; [apply H|exact Hm]. Qed.
Lemma forallb_break bs : Forall bchar bs -> forallb is_break_c bs = true.
Proof. intros H. apply forallb_forall. rewrite Forall_forall in H. intros x Hx. apply bchar_break, H, Hx. Qed.
Lemma is_blank_no9 x : x <> 9 -> is_blank (Some x) = (x =? 32).
Proof. intros H. unfold is_blank, is_space, is_tab, chk. lia. Qed.
Lemma break_32 x : is_break_c x = true -> x <> 32. Proof. intros H ->. discriminate H. Qed.
Lemma split_breaks (l : str) : exists bs m, l = bs ++ m /\ forallb is_break_c bs = true /\ match m with c :: _ => is_break_c c = false | [] => True end.
Proof.
  induction l as [|x l (bs & m & -> & H & Hm)]; [exists [], []; auto|]. destruct (is_break_c x) eqn:E.
  - exists (x :: bs), m. split; [reflexivity|]. split; [cbn; rewrite E; exact H|exact Hm].
  - exists [], (x :: bs ++ m). auto.
Qed.

(** The lines that are written: line breaks are doubled, spaces are replaced by line breaks. *)
Section lines.
Variables ind best : Z.
Definition doubled (b lead : bool) (ch : char) (r : str) : bool := negb b && negb lead && (ch =? cLF) && negb (is_blankz (nth_error (drop_breaks r) 1)).
Definition wrapped (b : bool) (x : Z) (ch : char) (r : str) : bool := negb b && (ch =? cSP) && negb (is_space (hd_opt r)) && (best <? x)%Z.
Fixpoint folded (b lead : bool) (x : Z) (l : str) : str :=
  match l with
  | [] => []
  | ch :: r =>
      if is_break_c ch then (if doubled b lead ch r then [10] else []) ++ ch :: folded true lead 0 r
      else let lk := if b then is_blank (Some ch) else lead in
           let x1 := if b then ind else x in
           if wrapped b x1 ch r then 10 :: folded false lk ind r else ch :: folded false lk (x1 + 1) r
  end.
(** Nothing goes wrong. *)
Fixpoint good (b lead : bool) (x : Z) (l : str) : bool :=
  match l with
  | [] => true
  | ch :: r =>
      if is_break_c ch then
        (b || lead || negb (ch =? 10) || match drop_breaks r with [] => true | z :: m => eqb (z =? 32) (is_blankz (hd_error m)) end) && good true lead 0 r
      else let lk := if b then is_blank (Some ch) else lead in
           let x1 := if b then ind else x in
           if wrapped b x1 ch r then negb lead && good false lk ind r else good false lk (x1 + 1) r
  end.
Lemma folded_x lead x x' l : folded true lead x l = folded true lead x' l.
Proof. destruct l; reflexivity. Qed.
Lemma folded_breaks bs m lead x : forallb is_break_c bs = true -> folded true lead x (bs ++ m) = bs ++ folded true lead x m.
Proof.
  revert x. induction bs as [|b bs IH]; intros x; [reflexivity|]. cbn [app forallb folded]. intros H. apply andb_true_iff in H. rewrite (proj1 H). change (doubled true lead b (bs ++ m)) with false. cbn [app].
  rewrite IH by apply H. rewrite (folded_x lead 0 x m). reflexivity.
Qed.
Lemma good_breaks bs m lead x : forallb is_break_c bs = true -> good true lead x (bs ++ m) = good true lead x m.
Proof. revert x. induction bs as [|b bs IH]; intros x; [reflexivity|]. cbn [app forallb good]. intros H. apply andb_true_iff in H. rewrite (proj1 H). cbn [orb andb]. rewrite IH by apply H. destruct m; reflexivity. Qed.
Lemma drop_app r t : forallb is_break_c t = true -> is_blankz (nth_error (drop_breaks (r ++ t)) 1) = is_blankz (nth_error (drop_breaks r) 1).
Proof.
  intros Ht. induction r as [|x r IH].
  - cbn [app]. rewrite <- (app_nil_r t), drop_head by (exact Ht || exact Logic.I). reflexivity.
  - cbn [app drop_breaks]. destruct (is_break_c x); [exact IH|]. destruct r as [|y r]; [|reflexivity]. destruct t as [|b t]; [reflexivity|]. cbn [forallb] in Ht. apply andb_true_iff in Ht. cbn. unfold is_blankz, is_breakz. cbn [is_break]. rewrite (proj1 Ht). apply orb_true_r.
Qed.
Lemma folded_tail l t : forallb is_break_c t = true -> forall b lead x, folded b lead x (l ++ t) = folded b lead x l ++ t.
Proof.
  intros Ht. induction l as [|ch r IH]; intros b lead x.
  - cbn [app folded]. destruct t as [|c t]; [reflexivity|]. cbn [forallb] in Ht. apply andb_true_iff in Ht. destruct Ht as [H1 H2]. cbn [folded]. rewrite H1. unfold doubled.
    rewrite <- (app_nil_r t) at 1. rewrite drop_head by (exact H2 || exact Logic.I). change (is_blankz (nth_error [] 1)) with true. rewrite andb_false_r. cbn [app]. f_equal.
    rewrite <- (app_nil_r t) at 1. rewrite folded_breaks by exact H2. apply app_nil_r.
  - cbn [app folded]. destruct (is_break_c ch).
    + rewrite IH. unfold doubled. rewrite drop_app by exact Ht. rewrite <- app_assoc. reflexivity.
    + assert (E : forall x1, wrapped b x1 ch (r ++ t) = wrapped b x1 ch r).
      { intros x1. unfold wrapped. destruct r as [|y r]; [|reflexivity]. destruct t as [|c t]; [reflexivity|]. cbn [app hd_opt]. cbn [forallb] in Ht. apply andb_true_iff in Ht. replace (is_space (Some c)) with false; [reflexivity|]. symmetry. apply N.eqb_neq, break_32, Ht. }
      cbv zeta. rewrite E, !IH. destruct (wrapped _ _ _ _); reflexivity.
Qed.
Lemma folded_last u z : is_break_c z = false -> z <> 32 -> forall b lead x, exists o, folded b lead x (u ++ [z]) = o ++ [z].
Proof.
  intros Hz Hz2. induction u as [|ch u IH]; intros b lead x; cbn [app folded].
  - rewrite Hz. replace (wrapped _ _ _ _) with false; [exists []; reflexivity|]. unfold wrapped. rewrite (proj2 (N.eqb_neq z cSP) Hz2), andb_false_r. reflexivity.
  - destruct (is_break_c ch).
    + destruct (IH true lead 0%Z) as (o & ->). eexists (_ ++ ch :: o). rewrite <- app_assoc. reflexivity.
    + cbv zeta. destruct (wrapped _ _ _ _).
      * destruct (IH false (if b then is_blank (Some ch) else lead) ind) as (o & ->). exists (10 :: o). reflexivity.
      * destruct (IH false (if b then is_blank (Some ch) else lead) ((if b then ind else x) + 1)%Z) as (o & ->). exists (ch :: o). reflexivity.
Qed.
Lemma folded_all (P : char -> Prop) l : P 10 -> Forall P l -> forall b lead x, Forall P (folded b lead x l).
Proof.
  intros H10 H. induction H as [|ch r Hc Hr IH]; intros b lead x; cbn [folded]; [constructor|]. destruct (is_break_c ch).
  - apply Forall_app. split; [destruct (doubled _ _ _ _); constructor; [exact H10|constructor]|]. constructor; [exact Hc|apply IH].
  - cbv zeta. destruct (wrapped _ _ _ _); constructor; auto.
Qed.
Lemma folded_hd lead x l : hd_error (folded true lead x l) = hd_error l.
Proof. destruct l as [|ch r]; [reflexivity|]. cbn [folded]. destruct (is_break_c ch); reflexivity. Qed.

(** ** What is read back is right exactly if nothing goes wrong. *)
Lemma no_shift (bs : str) x a b : forallb is_break_c bs = true -> is_break_c x = false -> forall c, is_break_c c = true -> c :: bs ++ x :: a <> bs ++ x :: b.
Proof.
  intros H Hx. induction bs as [|d bs IH]; intros c Hc E; cbn [app] in E; [congruence|]. injection E as -> E. cbn [forallb] in H. apply andb_true_iff in H. exact (IH (proj2 H) d (proj1 H) E).
Qed.
Lemma gap_right (lead e : bool) ch bs x m q : is_break_c ch = true -> forallb is_break_c bs = true -> is_break_c x = false -> x <> 9 ->
  e = negb lead && (ch =? 10) && negb (is_blankz (hd_error m)) ->
  gap_text false lead [if e then 10 else ch] (if e then ch :: bs else bs) (Some x) ++ x :: q = ch :: bs ++ x :: m <->
  (lead || negb (ch =? 10) || eqb (x =? 32) (is_blankz (hd_error m))) = true /\ q = m.
Proof.
  intros Hc Hb Hx H9 He. unfold gap_text. unfold str, char in *. rewrite (is_blank_no9 x H9). cbn [negb andb starts_with]. destruct lead; cbn [negb andb orb] in *.
  - subst e. rewrite !andb_false_r. cbn [app]. split; [intros E; split; [reflexivity|]|intros [_ ->]; reflexivity].
    injection E as E. apply app_inv_head in E. congruence.
  - destruct (N.eqb_spec ch 10) as [-> |Hn]; cbn [negb andb orb] in *.
    + destruct (is_blankz (hd_error m)); cbn [negb] in He; subst e.
      * change (10 =? cLF) with true. cbn [andb]. destruct (x =? 32) eqn:E32; cbn [negb eqb app].
        -- split; [intros E; split; [reflexivity|]|intros [_ ->]; reflexivity]. injection E as E. apply app_inv_head in E. congruence.
        -- split; [|intros [K _]; discriminate K]. intros E. exfalso. destruct bs as [|d bs]; cbn [is_empty app] in E; [discriminate E|].
           injection E as -> E. cbn [forallb] in Hb. apply andb_true_iff in Hb. symmetry in E. exact (no_shift bs x m q (proj2 Hb) Hx 10 Hc E).
      * change (10 =? cLF) with true. cbn [andb]. destruct (x =? 32) eqn:E32; cbn [negb eqb app is_empty].
        -- split; [|intros [K _]; discriminate K]. intros E. exfalso. injection E as E. exact (no_shift bs x q m Hb Hx 10 Hc E).
        -- split; [intros E; split; [reflexivity|]|intros [_ ->]; reflexivity]. injection E as E. apply app_inv_head in E. congruence.
    + subst e. replace (ch =? cLF) with false by (symmetry; apply N.eqb_neq, Hn). cbn [andb app]. split; [intros E; split; [reflexivity|]|intros [_ ->]; reflexivity].
      injection E as E. apply app_inv_head in E. congruence.
Qed.
Lemma reads_inline : forall k l, (length l <= k)%nat -> Forall lchar l -> tidy l -> forall lead x, joined false lead [] (folded false lead x l) = l <-> good false lead x l = true.
Proof.
  induction k as [|k IH]; intros l Hk Hl Ht lead x; (destruct l as [|ch r]; [split; reflexivity|]); [cbn in Hk; lia|]. cbn [length] in Hk.
  pose proof Hl as Hl'. apply Forall_cons_iff in Hl. destruct Hl as [Hc Hl]. cbn [tidy] in Ht. destruct Ht as [Ht0 Ht]. cbn [folded good]. destruct (is_break_c ch) eqn:Ec.
  - destruct (split_breaks r) as (bs & m & -> & Hb & Hm). rewrite folded_breaks by exact Hb. unfold doubled. rewrite good_breaks, drop_head by assumption. cbn [orb].
    destruct m as [|z m].
    + change (is_blankz (nth_error [] 1)) with true. cbn [negb folded good]. rewrite !andb_false_r, !orb_true_r. cbn [app andb]. rewrite !app_nil_r. split; [reflexivity|intros _].
      rewrite <- (app_nil_r (ch :: bs)) at 1. rewrite joined_breaks by (cbn [forallb]; rewrite Ec; exact Hb). reflexivity.
    + apply Forall_app in Hl. destruct Hl as [_ Hl]. apply Forall_cons_iff in Hl. destruct Hl as [Hz Hlm].
      assert (Htm : tidy (z :: m)). { clear -Ht. induction bs as [|b bs IHb]; [exact Ht|]. apply IHb, Ht. }
      cbn [tidy] in Htm. destruct Htm as [_ Htm]. assert (Hkm : (length m <= k)%nat) by (rewrite app_length in Hk; cbn [length] in Hk; unfold str, char in *; lia).
      assert (En : @nth_error char (z :: m) 1 = hd_error m) by (destruct m; reflexivity). rewrite En. clear En.
      cbn [folded good]. rewrite Hm. unfold wrapped. cbn [negb andb]. rewrite is_blank_no9 by apply Hz. change cLF with 10. set (q := folded false (z =? 32) (ind + 1)%Z m). set (e := negb lead && (ch =? 10) && negb (is_blankz (hd_error m))).
      assert (J : joined false lead [] ((if e then [10] else []) ++ ch :: bs ++ z :: q) = gap_text false lead [if e then 10 else ch] (if e then ch :: bs else bs) (Some z) ++ z :: joined false (z =? 32) [] q).
      { replace ((if e then [10] else []) ++ ch :: bs ++ z :: q) with (((if e then 10 else ch) :: (if e then ch :: bs else bs)) ++ z :: q) by (destruct e; reflexivity).
        rewrite joined_breaks by (destruct e; cbn [forallb]; rewrite Ec, Hb; reflexivity). cbn [app]. rewrite joined_next by exact Hm. cbn [line_of]. rewrite is_blank_no9 by apply Hz. reflexivity. }
      rewrite J. rewrite (gap_right lead e ch bs z m _ Ec Hb Hm (proj2 Hz) eq_refl). specialize (IH m Hkm Hlm Htm (z =? 32) (ind + 1)%Z). fold q in IH. rewrite andb_true_iff. apply and_iff_compat_l. exact IH.
  - cbv zeta. destruct (wrapped false x ch r) eqn:Ew.
    + unfold wrapped in Ew. cbn [negb] in Ew. apply andb_true_iff in Ew. destruct Ew as [Ew E4]. apply andb_true_iff in Ew. destruct Ew as [E2 E3]. cbn [andb] in E2. apply N.eqb_eq in E2. change cSP with 32 in E2. subst ch.
      specialize (Ht0 eq_refl). destruct r as [|y r]; [destruct Ht0|]. cbn [hd_opt] in E3. apply Forall_cons_iff in Hl. destruct Hl as [Hy Hl].
      assert (Hy32 : (y =? 32) = false) by (apply negb_true_iff in E3; exact E3).
      assert (Ey : folded false lead ind (y :: r) = y :: folded false lead (ind + 1) r) by (cbn [folded]; rewrite Ht0; unfold wrapped; change cSP with 32; rewrite Hy32; reflexivity).
      rewrite Ey. change (joined false lead [] (10 :: y :: folded false lead (ind + 1) r)) with (joined false lead [10] (y :: folded false lead (ind + 1) r)). rewrite joined_next by exact Ht0. cbn [line_of]. unfold gap_text. unfold str, char in *. rewrite is_blank_no9, Hy32 by apply Hy.
      destruct lead; cbn [negb andb starts_with].
      * change (10 =? cLF) with true. cbn [andb app]. split; [intros E; discriminate E|discriminate].
      * change (10 =? cLF) with true. cbn [andb is_empty app].
        specialize (IH (y :: r) ltac:(cbn [length] in Hk |- *; unfold str, char in *; lia) ltac:(constructor; assumption) Ht false ind). rewrite Ey in IH. cbn [joined] in IH. rewrite Ht0 in IH. rewrite <- IH.
        split; intros E; injection E as E; [exact (f_equal (cons y) E)|exact (f_equal (fun k => 32 :: y :: k) E)].
    + cbn [joined]. rewrite Ec. rewrite <- (IH r ltac:(lia) Hl Ht). split; [congruence|intros ->; reflexivity].
Qed.
Lemma span_front (bs : str) x r : forallb is_break_c bs = true -> is_break_c x = false -> span is_break_c (bs ++ x :: r) = (bs, x :: r).
Proof. intros H Hx. induction bs as [|b bs IH]; cbn [app span]; [rewrite Hx; reflexivity|]. cbn [forallb] in H. apply andb_true_iff in H. rewrite (proj1 H), (IH (proj2 H)). reflexivity. Qed.
Lemma reads_whole l : Forall lchar l -> tidy l -> read_back false (folded true true 0 l) = l <-> good true true 0 l = true.
Proof.
  intros Hl Ht. destruct (split_breaks l) as (bs & m & -> & Hb & Hm). rewrite folded_breaks, good_breaks by exact Hb. destruct m as [|z m].
  - cbn [folded good]. unfold read_back. rewrite app_nil_r, (span_whole bs Hb). cbn [line_of]. rewrite app_nil_r. split; reflexivity.
  - cbn [folded good]. rewrite Hm. unfold wrapped. cbn [negb andb]. apply Forall_app in Hl. destruct Hl as [_ Hl]. apply Forall_cons_iff in Hl. destruct Hl as [Hz Hlm].
    assert (Htm : tidy (z :: m)). { clear -Ht. induction bs as [|b bs IHb]; [exact Ht|]. apply IHb, Ht. } cbn [tidy] in Htm. destruct Htm as [_ Htm].
    unfold read_back. rewrite span_front by assumption. cbn [line_of]. rewrite <- (reads_inline (length m) m (le_n _) Hlm Htm). split; [|intros ->; reflexivity].
    intros E. apply app_inv_head in E. injection E as E. exact E.
Qed.

(** ** Nothing goes wrong: the specification. *)
Definition fits (n : nat) : Prop := (ind + Z.of_nat n <= best)%Z.
Definition line_ok (l : str) : Prop := break_folds l /\ indented_fits fits l.
Definition rest_ok (lead : bool) (x : Z) (l : str) : Prop :=
  (lead = false -> forall w bs z r, l = w ++ 10 :: bs ++ z :: r -> one_line w -> Forall (fun b => breaking b = true) bs -> breaking z = false ->
    (z = 32 <-> match r with [] => True | y :: _ => y = 32 \/ breaking y = true end)) /\
  (lead = true -> forall u y r, l = u ++ 32 :: y :: r -> one_line u -> y <> 32 -> breaking y = false -> (x + Z.of_nat (length u) <= best)%Z).
Lemma line_start_cons x a : is_break_c x = true \/ a <> [] -> line_start (x :: a) <-> line_start a.
Proof.
  intros H. unfold line_start. split.
  - intros [E|(b & y & E & Hy)]; [discriminate E|]. destruct b as [|x' b]; cbn in E; injection E as -> E; [left; exact E|]. right. exists b, y. auto.
  - intros [-> |(b & y & -> & Hy)]; right; [|exists (x :: b), y; auto]. exists [], x. split; [reflexivity|]. rewrite breaking_c. destruct H as [H|H]; [exact H|congruence].
Qed.
Lemma start_nil : line_start []. Proof. left. reflexivity. Qed.
Lemma forall_break bs : Forall (fun b => breaking b = true) bs -> forallb is_break_c bs = true.
Proof. intros H. apply forallb_forall. rewrite Forall_forall in H. intros x Hx. rewrite <- breaking_c. apply H, Hx. Qed.
Lemma break_forall bs : forallb is_break_c bs = true -> Forall (fun b => breaking b = true) bs.
Proof. intros H. apply Forall_forall. rewrite forallb_forall in H. intros x Hx. rewrite breaking_c. apply H, Hx. Qed.
Lemma second_blank m : Forall lchar m -> is_blankz (hd_error m) = true <-> match m with [] => True | y :: _ => y = 32 \/ breaking y = true end.
Proof.
  intros H. destruct m as [|y m]; [split; [auto|reflexivity]|]. apply Forall_cons_iff in H. cbn [hd_error]. unfold is_blankz. rewrite is_blank_no9 by apply H. unfold is_breakz. cbn [is_break]. rewrite breaking_c.
  change (is_z (Some y)) with false. rewrite ?orb_false_r, ?orb_false_l, orb_true_iff, N.eqb_eq. reflexivity.
Qed.
Lemma good_spec : forall l, Forall lchar l -> tidy l -> forall lead x,
  (good true lead x l = true <-> (forall a l', l = a ++ l' -> line_start a -> line_ok l')) /\
  (good false lead x l = true <-> rest_ok lead x l /\ (forall a l', l = a ++ l' -> a <> [] -> line_start a -> line_ok l')).
Proof.
  assert (Lnil : forall a l', [] = a ++ l' -> line_ok l').
  { intros a l' E. symmetry in E. apply app_eq_nil in E. destruct E as [_ ->]. split; [intros w bs z r E|intros u y r E; discriminate E]. destruct w; discriminate E. }
  induction l as [|ch r IH]; intros Hl Ht lead x.
  - cbn [good]. split; (split; [intros _|reflexivity]); [intros a l' E _; exact (Lnil a l' E)|]. split; [split; intros _|intros a l' E _ _; exact (Lnil a l' E)]; [intros w bs z r E|intros u y r E]; destruct w || destruct u; discriminate E.
  - apply Forall_cons_iff in Hl. destruct Hl as [Hc Hl]. cbn [tidy] in Ht. destruct Ht as [Ht0 Ht]. specialize (IH Hl Ht). cbn [good]. destruct (is_break_c ch) eqn:Ec.
    + assert (Lb : line_ok (ch :: r)).
      { split; [intros w bs z r' E Hw Hne|intros u y r' E]; [destruct w as [|w0 w]; [congruence|]; injection E as -> E; apply Forall_cons_iff in Hw; rewrite breaking_c in Hw; destruct Hw; congruence|injection E as -> E; discriminate Ec]. }
      assert (Rest : (forall a l', ch :: r = a ++ l' -> a <> [] -> line_start a -> line_ok l') <-> (forall a l', r = a ++ l' -> line_start a -> line_ok l')).
      { split; [intros H a l' -> Ha; apply (H (ch :: a) l' eq_refl); [discriminate|apply line_start_cons; auto]|]. intros H a l' E Hne Ha. destruct a as [|c a]; [congruence|]. cbn [app] in E. injection E as <- ->. apply (H a l' eq_refl). apply (line_start_cons ch a); auto. }
      split.
      * cbn [orb andb]. rewrite (proj1 (IH lead 0%Z)), <- Rest. split; [|intros H a l' E _ Ha; exact (H a l' E Ha)]. intros H a l' E Ha. destruct a as [|c a]; [cbn in E; subst l'; exact Lb|]. apply (H _ l' E); [discriminate|exact Ha].
      * cbn [orb]. rewrite andb_true_iff, (proj1 (IH lead 0%Z)), Rest. apply and_iff_compat_r. unfold rest_ok. destruct (split_breaks r) as (bs & m & -> & Hb & Hm). rewrite drop_head by assumption.
        apply Forall_app in Hl. destruct Hl as [_ Hlm]. split.
        -- intros H. split; [intros -> w bs' z r' E Hw Hbs Hz|intros _ u y r' E Hu; exfalso].
           ++ destruct w as [|w0 w]; [|exfalso; injection E as -> E; apply Forall_cons_iff in Hw; rewrite breaking_c in Hw; destruct Hw; congruence].
              cbn [app] in E. injection E as -> E. cbn [orb negb N.eqb Pos.eqb] in H. rewrite breaking_c in Hz.
              assert (Em : m = z :: r'). { rewrite <- (drop_head bs m Hb Hm), E. apply drop_head; [apply forall_break, Hbs|exact Hz]. }
              subst m. apply Forall_cons_iff in Hlm. rewrite <- (second_blank r') by apply Hlm. apply eqb_prop in H. rewrite <- H. symmetry. apply N.eqb_eq.
           ++ destruct u as [|u0 u]; injection E as -> E; [discriminate Ec|]. apply Forall_cons_iff in Hu. rewrite breaking_c in Hu. destruct Hu; congruence.
        -- intros [H _]. destruct lead; [reflexivity|]. cbn [orb]. destruct (N.eqb_spec ch 10) as [-> |Hn]; [|reflexivity]. cbn [negb orb]. destruct m as [|z m]; [reflexivity|].
           specialize (H eq_refl [] bs z m eq_refl (Forall_nil _) (break_forall _ Hb) ltac:(rewrite breaking_c; exact Hm)). apply Forall_cons_iff in Hlm. rewrite <- (second_blank m) in H by apply Hlm. rewrite <- N.eqb_eq in H.
           destruct (z =? 32), (is_blankz (hd_error m)); cbn; intuition congruence.
    + assert (Rest : forall a l', (ch :: r = a ++ l' /\ a <> [] /\ line_start a) <-> exists a', a = ch :: a' /\ r = a' ++ l' /\ a' <> [] /\ line_start a').
      { intros a l'. split.
        - intros (E & Hne & Ha). destruct a as [|c a]; [congruence|]. cbn [app] in E. injection E as <- E. exists a. split; [reflexivity|]. split; [exact E|]. assert (Hne' : a <> []).
          { intros ->. destruct Ha as [Ha|([|b0 b] & y & Ha & Hy)]; [discriminate Ha|injection Ha as ->; rewrite breaking_c in Hy; congruence|destruct b; discriminate Ha]. }
          split; [exact Hne'|]. apply (line_start_cons ch a); auto.
        - intros (a' & -> & -> & Hne & Ha). split; [reflexivity|]. split; [discriminate|]. apply line_start_cons; auto. }
      assert (Rest2 : (forall a l', ch :: r = a ++ l' -> a <> [] -> line_start a -> line_ok l') <-> (forall a l', r = a ++ l' -> a <> [] -> line_start a -> line_ok l')).
      { split; intros H a l' E Hne Ha; [apply (H (ch :: a) l'); [rewrite E; reflexivity|discriminate|apply line_start_cons; auto]|]. destruct (proj1 (Rest a l') (conj E (conj Hne Ha))) as (a' & -> & E' & Hne' & Ha'). exact (H a' l' E' Hne' Ha'). }
      assert (Hch : is_blank (Some ch) = (ch =? 32)) by (apply is_blank_no9, Hc).
      split.
      * unfold wrapped. cbn [negb andb]. rewrite Hch, (proj2 (IH (ch =? 32) (ind + 1)%Z)), <- Rest2.
        assert (L0 : line_ok (ch :: r) <-> rest_ok (ch =? 32) (ind + 1) r).
        { unfold line_ok, rest_ok, break_folds, indented_fits, fits. split; (intros [A B]; split).
          - intros E32 w bs z r' -> Hw. apply (A (ch :: w) bs z r' eq_refl); [constructor; [rewrite breaking_c; exact Ec|exact Hw]|discriminate|]. cbn. intros [= ->]. discriminate E32.
          - intros E32 u y r' -> Hu Hy Hy2. apply N.eqb_eq in E32. subst ch. specialize (B u y r' eq_refl Hu Hy Hy2). lia.
          - intros w bs z r' E Hw Hne H32. destruct w as [|w0 w]; [congruence|]. cbn [app] in E. injection E as <- ->. apply Forall_cons_iff in Hw. apply (A ltac:(apply N.eqb_neq; intros ->; exact (H32 eq_refl)) w bs z r' eq_refl). apply Hw.
          - intros u y r' E Hu Hy Hy2. injection E as -> ->. specialize (B eq_refl u y r' eq_refl Hu Hy Hy2). lia. }
        rewrite <- L0. split.
        -- intros [A B] a l' E Ha. destruct a as [|c a]; [cbn in E; subst l'; exact A|]. apply (B _ l' E); [discriminate|exact Ha].
        -- intros H. split; [apply (H [] _ eq_refl), start_nil|intros a l' E _ Ha; exact (H a l' E Ha)].
      * cbv zeta. rewrite Rest2. destruct (wrapped false x ch r) eqn:Ew.
        -- unfold wrapped in Ew. cbn [negb] in Ew. apply andb_true_iff in Ew. destruct Ew as [Ew E4]. apply andb_true_iff in Ew. destruct Ew as [E2 E3]. cbn [andb] in E2. apply N.eqb_eq in E2. change cSP with 32 in E2. subst ch.
           specialize (Ht0 eq_refl). destruct r as [|y r]; [destruct Ht0|]. cbn [hd_opt] in E3. apply negb_true_iff in E3. change (is_space (Some y)) with (y =? 32) in E3. apply N.eqb_neq in E3.
           destruct lead; cbn [negb andb].
           ++ split; [discriminate|]. intros [[_ H] _]. specialize (H eq_refl [] y r eq_refl (Forall_nil _) E3 ltac:(rewrite breaking_c; exact Ht0)). cbn in H. lia.
           ++ rewrite (proj2 (IH false ind)). apply and_iff_compat_r. unfold rest_ok. split; (intros [A _]; split; [intros _|discriminate]).
              ** intros w bs z r' E Hw. destruct w as [|w0 w]; [discriminate E|]. cbn [app] in E. injection E as <- E. apply Forall_cons_iff in Hw. apply (A eq_refl w bs z r' E). apply Hw.
              ** intros w bs z r' E Hw. apply (A eq_refl (32 :: w) bs z r'); [rewrite E; reflexivity|]. constructor; [reflexivity|exact Hw].
        -- rewrite (proj2 (IH lead (x + 1)%Z)). apply and_iff_compat_r. unfold rest_ok. split; (intros [A B]; split).
           ++ intros -> w bs z r' E Hw. destruct w as [|w0 w]; [cbn [app] in E; injection E as -> E; discriminate Ec|]. cbn [app] in E. injection E as <- E. apply Forall_cons_iff in Hw. apply (A eq_refl w bs z r' E). apply Hw.
           ++ intros -> u y r' E Hu Hy Hy2. destruct u as [|u0 u]; cbn [app] in E; injection E as -> E.
              ** subst r. unfold wrapped in Ew. cbn [negb andb hd_opt] in Ew. change (32 =? cSP) with true in Ew. change (is_space (Some y)) with (y =? 32) in Ew. rewrite (proj2 (N.eqb_neq _ _) Hy) in Ew. cbn [negb andb] in Ew. cbn [length]. lia.
              ** apply Forall_cons_iff in Hu. specialize (B eq_refl u y r' E (proj2 Hu) Hy Hy2). cbn [length]. lia.
           ++ intros -> w bs z r' -> Hw. apply (A eq_refl (ch :: w) bs z r' eq_refl). constructor; [rewrite breaking_c; exact Ec|exact Hw].
           ++ intros -> u y r' -> Hu Hy Hy2. specialize (B eq_refl (ch :: u) y r' eq_refl ltac:(constructor; [rewrite breaking_c; exact Ec|exact Hu]) Hy Hy2). cbn [length] in B. lia.
Qed.
Theorem folds_exactly l : Forall lchar l -> tidy l -> folds fits l <-> read_back false (folded true true 0 l) = l.
Proof. intros Hl Ht. rewrite (reads_whole l Hl Ht). symmetry. apply (good_spec l Hl Ht true 0%Z). Qed.
Lemma folds_good l : Forall lchar l -> tidy l -> folds fits l <-> good true true 0 l = true.
Proof. intros Hl Ht. symmetry. apply (good_spec l Hl Ht true 0%Z). Qed.
End lines.
Lemma folds_any (f : nat -> Prop) v : always_folds_well v -> folds f v.
Proof. intros H a l E Ha. destruct (H a l E Ha) as [H1 H2]. split; [exact H1|]. intros u y r E2 Hu Hy Hy2. destruct (H2 u y r E2 Hu Hy Hy2). Qed.
(** A test: no width is enough. *)
Fixpoint tidy_test (l : str) : bool :=
  match l with [] => true | x :: r => (negb (x =? 32) || match r with [] => false | y :: _ => negb (is_break_c y) end) && tidy_test r end.
Definition lchar_test (x : char) : bool := (negb (is_break_c x) || (x =? 10) || (x =? 8232) || (x =? 8233)) && negb (x =? 9).
Definition folds_test (ind best : Z) (l : str) : bool := forallb lchar_test l && tidy_test l && good ind best true true 0 l.
Lemma folds_tested ind best l : folds_test ind best l = true -> folds (fits ind best) l.
Proof.
  unfold folds_test. rewrite !andb_true_iff. intros [[H1 H2] H3]. apply folds_good; [| |exact H3].
  - apply Forall_forall. rewrite forallb_forall in H1. intros x Hx. specialize (H1 x Hx). unfold lchar_test in H1. unfold lchar, bchar. destruct (is_break_c x); lia.
  - clear H1 H3. induction l as [|x r IH]; [exact Logic.I|]. cbn [tidy tidy_test] in *. apply andb_true_iff in H2. destruct H2 as [H1 H2]. split; [|apply IH, H2]. intros ->. cbn in H1. destruct r; [discriminate|]. apply negb_true_iff, H1.
Qed.
Lemma always_tested l : folds_test 0 (-1) l = true -> always_folds_well l.
Proof. intros H a k E Ha. destruct (folds_tested _ _ l H a k E Ha) as [H1 H2]. split; [exact H1|]. intros u y r E2 Hu Hy Hy2. specialize (H2 u y r E2 Hu Hy Hy2). unfold fits in H2. lia. Qed.

(** ** Writing. *)
Section writers.
Variable c : est.
Notation ind := (em_indent c).
Notation lf := (break_chars (em_line_break c)).
Notation n := (Z.to_nat ind).
Notation best := (em_best_width c).
Hypothesis Hind : (1 <= ind)%Z.
Definition fin (b : bool) (l : str) : bool := match l with [] => b | _ => ends l end.
Lemma ends_cons ch r : ends (ch :: r) = match r with [] => is_break_c ch | _ => ends r end.
Proof. destruct r as [|d r]; [reflexivity|]. exact (ends_app [ch] (d :: r) ltac:(discriminate)). Qed.
Lemma fin_cons b ch r : fin b (ch :: r) = match r with [] => is_break_c ch | _ => ends r end. Proof. exact (ends_cons ch r). Qed.
Lemma folded_runs : forall l (b lead : bool) x y, (b = true -> x = 0%Z) -> Forall lchar l -> tidy l ->
  exists x' y', runs (folded_loop b lead l) (mv x y true b c) (ltext lf n b (folded ind best b lead x l)) (Ok tt) (mv x' y' true (fin b l) c) /\ (fin b l = true -> x' = 0%Z).
Proof.
  induction l as [|ch r IH]; intros b lead x y Hb Hl Ht; cbn [folded_loop folded].
  - exists x, y. split; [apply runs_ret|exact Hb].
  - apply Forall_cons_iff in Hl. destruct Hl as [Hlc Hl]. cbn [tidy] in Ht. destruct Ht as [Ht0 Ht]. destruct (is_break_c ch) eqn:Ec.
    + set (e := doubled b lead ch r).
      destruct (IH true lead 0%Z (y + 1 + (if e then 1 else 0))%Z ltac:(auto) Hl Ht) as (x' & y' & R & Hx).
      exists x', y'. assert (Efin : fin b (ch :: r) = fin true r) by (rewrite fin_cons, Ec; destruct r; reflexivity). rewrite Efin. split; [|exact Hx].
      set (p := folded ind best true lead 0 r) in *.
      assert (Et : ltext lf n b ((if e then [10] else []) ++ ch :: p) = (if e then lf else []) ++ btext lf ch ++ ltext lf n true p).
      { destruct e; cbn [app ltext]; [change (is_break_c 10) with true; cbv iota; rewrite Ec; reflexivity|rewrite Ec; reflexivity]. }
      rewrite Et. refine (runs_seq _ _ _ _ (mv (if e then 0 else x) (y + if e then 1 else 0) true b c) _ _ _ _ _).
      { fold (doubled b lead ch r). fold e. destruct e; cbn [when]; [apply r_put_break|rewrite Z.add_0_r; apply runs_ret]. }
      unfold btext. refine (runs_seq _ _ _ _ _ _ _ _ (r_write_break _ _ _ _ _ _) _). refine (runs_seq _ _ _ [] _ _ _ _ (r_set_indention _ _ _ _ _ _) _).
      replace (y + (if e then 1 else 0) + 1)%Z with (y + 1 + (if e then 1 else 0))%Z by lia. exact R.
    + cbv zeta. set (lk := if b then is_blank (Some ch) else lead). set (x1 := if b then ind else x).
      assert (R1 : runs (when b write_indent) (mv x y true b c) (if b then sps n else []) (Ok tt) (mv x1 y true b c)).
      { unfold x1. destruct b; cbn [when].
        - rewrite (Hb eq_refl). rewrite <- (Z.sub_0_r ind) at 1. apply r_write_indent_stay; lia.
        - apply runs_ret. }
      destruct (wrapped best b x1 ch r) eqn:Ef.
      * pose proof Ef as Ef0. unfold wrapped in Ef. apply andb_true_iff in Ef. destruct Ef as [Ef E4]. apply andb_true_iff in Ef. destruct Ef as [Ef E3]. apply andb_true_iff in Ef. destruct Ef as [E1 E2]. apply negb_true_iff in E1. subst b. apply N.eqb_eq in E2. change cSP with 32 in E2. subst ch.
        specialize (Ht0 eq_refl). destruct r as [|y0 r]; [destruct Ht0|]. cbn [hd_opt] in E3.
        destruct (IH false lk ind (y + 1)%Z ltac:(discriminate) Hl Ht) as (x' & y' & R & Hx). exists x', y'.
        change (fin false (32 :: y0 :: r)) with (ends ([32] ++ y0 :: r)). rewrite ends_app by discriminate. split; [|exact Hx].
        assert (Ey : folded ind best false lk ind (y0 :: r) = y0 :: folded ind best false lk (ind + 1) r).
        { cbn [folded]. rewrite Ht0. unfold wrapped. change cSP with 32. change (is_space (Some y0)) with (y0 =? 32) in E3. apply negb_true_iff in E3. rewrite E3. reflexivity. }
        assert (Et : ltext lf n false (10 :: folded ind best false lk ind (y0 :: r)) = [] ++ (lf ++ sps n) ++ [] ++ ltext lf n false (folded ind best false lk ind (y0 :: r))).
        { rewrite Ey. cbn [ltext app]. change (is_break_c 10) with true. cbv iota. unfold btext. cbn [N.eqb Pos.eqb]. rewrite Ht0, <- app_assoc. reflexivity. }
        rewrite Et. refine (runs_seq _ _ _ [] _ _ _ _ R1 _). cbv zeta. fold lk. apply runs_get; [reflexivity|]. change (em_best_width (mv x1 y true false c)) with best. change (em_column (mv x1 y true false c)) with x1.
        fold (wrapped best false x1 32 (y0 :: r)). rewrite Ef0.
        refine (runs_seq _ _ _ _ _ _ _ _ (r_write_indent_break _ _ _ _ _ _ _) _); [lia|reflexivity|]. refine (runs_seq _ _ _ [] _ _ _ _ (r_set_indention _ _ _ _ _ _) _). exact R.
      * destruct (IH false lk (x1 + 1)%Z y ltac:(discriminate) Hl Ht) as (x' & y' & R & Hx). exists x', y'.
        assert (Efin : fin b (ch :: r) = fin false r) by (rewrite fin_cons, Ec; destruct r; reflexivity). rewrite Efin. split; [|exact Hx].
        set (p := folded ind best false lk (x1 + 1) r) in *.
        assert (Ep : ltext lf n b (ch :: p) = (if b then sps n else []) ++ [ch] ++ ltext lf n false p) by (cbn [ltext]; rewrite Ec; reflexivity). rewrite Ep.
        refine (runs_seq _ _ _ _ _ _ _ _ R1 _). cbv zeta. fold lk. apply runs_get; [reflexivity|]. change (em_best_width (mv x1 y true b c)) with best. change (em_column (mv x1 y true b c)) with x1.
        fold (wrapped best b x1 ch r). rewrite Ef. refine (runs_seq _ _ _ _ _ _ _ _ (r_write_char _ _ _ _ _ _) _). exact (runs_seq _ _ _ [] _ _ _ _ (r_set_indention _ _ _ _ _ _) R).
Qed.
End writers.

(** The block scalar header depends only on the beginning and the end, which stay. *)
Lemma split_ends (l : str) : exists w t, l = w ++ t /\ forallb is_break_c t = true /\ (w = [] \/ exists u z, w = u ++ [z] /\ is_break_c z = false).
Proof.
  induction l as [|x l (w & t & -> & Ht & Hw)] using rev_ind; [exists [], []; auto|]. destruct (is_break_c x) eqn:E.
  - exists w, (t ++ [x]). split; [symmetry; apply app_assoc|]. split; [|exact Hw]. rewrite forallb_app, Ht. cbn. rewrite E. reflexivity.
  - exists ((w ++ t) ++ [x]), []. split; [symmetry; apply app_nil_r|]. split; [reflexivity|]. right. eauto.
Qed.
Lemma joined_tail li w t : forallb is_break_c t = true -> forall lk bs, joined li lk bs (w ++ t) = joined li lk bs w ++ t.
Proof.
  intros Ht. induction w as [|x w IH]; intros lk bs.
  - cbn [app joined]. rewrite <- (app_nil_r t) at 1. rewrite joined_breaks by exact Ht. reflexivity.
  - cbn [app joined]. destruct (is_break_c x); [apply IH|]. destruct bs as [|b tb]; [rewrite IH; reflexivity|]. rewrite IH, <- app_assoc. reflexivity.
Qed.
Lemma joined_last li u z : is_break_c z = false -> forall lk bs, exists o, joined li lk bs (u ++ [z]) = o ++ [z].
Proof.
  intros Hz. induction u as [|x u IH]; intros lk bs.
  - cbn [app joined]. rewrite Hz. destruct bs as [|b tb]; [exists []; reflexivity|]. eexists. reflexivity.
  - cbn [app joined]. destruct (is_break_c x); [apply IH|]. destruct bs as [|b tb].
    + destruct (IH lk []) as (o & ->). exists (x :: o). reflexivity.
    + destruct (IH (is_blank (Some x)) []) as (o & ->). eexists (_ ++ x :: o). rewrite <- app_assoc. reflexivity.
Qed.
Lemma ends_last (u : str) z : ends (u ++ [z]) = is_break_c z. Proof. unfold ends. rewrite rev_app_distr. reflexivity. Qed.
Lemma read_tail q t : forallb is_break_c t = true -> (exists o z, q = o ++ [z] /\ is_break_c z = false) -> exists o z, read_back false (q ++ t) = (o ++ [z]) ++ t /\ is_break_c z = false.
Proof.
  intros Ht (o & z & -> & Hz). destruct (split_breaks o) as (bs & m & -> & Hb & Hm). unfold read_back. destruct m as [|x m].
  - replace (((bs ++ []) ++ [z]) ++ t) with (bs ++ z :: t) by (rewrite app_nil_r, <- app_assoc; reflexivity). rewrite span_front by assumption. cbn [line_of].
    pose proof (joined_breaks false (is_blank (Some z)) t [] Ht []) as K. rewrite app_nil_r in K. cbn [joined app] in K. rewrite K. exists bs, z. split; [rewrite <- app_assoc; reflexivity|exact Hz].
  - replace (((bs ++ x :: m) ++ [z]) ++ t) with (bs ++ x :: (m ++ [z]) ++ t) by (rewrite <- !app_assoc; reflexivity). rewrite span_front by assumption. cbn [line_of].
    rewrite joined_tail by exact Ht. destruct (joined_last false m z Hz (is_blank (Some x)) []) as (o & ->). exists (bs ++ x :: o), z. split; [rewrite <- !app_assoc; reflexivity|exact Hz].
Qed.
Lemma read_hd p : hd_error (read_back false p) = hd_error p.
Proof. destruct (split_breaks p) as (bs & m & -> & Hb & Hm). unfold read_back. destruct m as [|x m]; [rewrite app_nil_r, span_whole by exact Hb; cbn [line_of]; rewrite app_nil_r; reflexivity|]. rewrite span_front by assumption. destruct bs; reflexivity. Qed.
Lemma tidy_last u z t : tidy (u ++ z :: t) -> forallb is_break_c t = true -> z <> 32.
Proof.
  intros H Ht ->. induction u as [|x u IH]; [|apply IH, H]. cbn [app tidy] in H. destruct H as [H _]. specialize (H eq_refl). destruct t as [|b t]; [exact H|]. cbn in Ht. apply andb_true_iff in Ht. destruct Ht. congruence.
Qed.
Lemma folded_facts ind best l : l <> [] -> Forall lchar l -> tidy l -> let p := folded ind best true true 0 l in
  p <> [] /\ Forall lchar p /\ hinted p = hinted l /\ chomp_of p = chomp_of l /\ ends p = ends l /\ ends (read_back false p) = ends l.
Proof.
  intros Hne Hl Ht. cbv zeta. set (p := folded ind best true true 0 l).
  assert (Hlp : Forall lchar p) by (apply folded_all; [split; [intros _; left; reflexivity|discriminate]|exact Hl]).
  assert (Hh : hd_error p = hd_error l) by apply folded_hd.
  split; [intros E; rewrite E in Hh; destruct l; [congruence|discriminate Hh]|]. split; [exact Hlp|]. split; [unfold hinted; rewrite Hh; reflexivity|].
  destruct (split_ends l) as (w & t & El & Hb & Hw). assert (Ep : p = folded ind best true true 0 w ++ t) by (unfold p; rewrite El; apply folded_tail, Hb).
  assert (Hbt : Forall bchar t). { rewrite El in Hl. apply Forall_app in Hl. destruct Hl as [_ Hlt]. apply Forall_forall. intros y Hy. rewrite Forall_forall in Hlt. apply (Hlt y Hy). rewrite forallb_forall in Hb. apply Hb, Hy. }
  destruct Hw as [-> |(u & z & -> & Hz)].
  - cbn [app folded] in *. subst l. rewrite Ep. split; [reflexivity|]. split; [reflexivity|]. unfold read_back. rewrite span_whole by exact Hb. cbn [line_of]. rewrite app_nil_r. reflexivity.
  - assert (Hz32 : z <> 32) by (apply (tidy_last u z t); [rewrite El, <- app_assoc in Ht; exact Ht|exact Hb]).
    destruct (folded_last ind best u z Hz Hz32 true true 0%Z) as (o & Eo). rewrite Eo in Ep. destruct (read_tail (o ++ [z]) t Hb (ex_intro _ o (ex_intro _ z (conj eq_refl Hz)))) as (o2 & z2 & E2 & Hz2).
    assert (C : forall o0 z0, is_break_c z0 = false -> ends ((o0 ++ [z0]) ++ t) = match t with [] => false | _ => true end).
    { intros o0 z0 H0. destruct t as [|b t]; [rewrite app_nil_r, ends_last; exact H0|]. rewrite ends_app by discriminate. destruct (exists_last (l := b :: t) ltac:(discriminate)) as (tt0 & bb & E). rewrite E, ends_last. rewrite forallb_forall in Hb. apply Hb. rewrite E. apply in_app_iff. right. left. reflexivity. }
    split; [|split].
    + rewrite Ep, El. rewrite !chomp_split; [reflexivity|destruct u; discriminate|rewrite ends_last; exact Hz|exact Hbt|destruct o; discriminate|rewrite ends_last; exact Hz|exact Hbt].
    + rewrite Ep, El, !C by exact Hz. reflexivity.
    + rewrite Ep, E2, El, !C by assumption. reflexivity.
Qed.
Lemma folded_written_any c u v x y w i : v <> [] -> block_text u v -> (1 <= em_indent c)%Z -> (1 <= em_best_indent c <= 9)%Z -> let p := folded (em_indent c) (em_best_width c) true true 0 v in exists x' y' k,
  runs (write_folded_scalar v) (mv x y w i c) ((if negb w then [32] else []) ++ 62 :: hint_text p (Z.to_N (em_best_indent c)) ++ chomp_text (chomp_of p) ++
    break_chars (em_line_break c) ++ ltext (break_chars (em_line_break c)) (Z.to_nat (em_indent c)) true p) (Ok tt) (mv x' y' true (ends p) (set_em_open_ended k c)) /\ (ends p = true -> x' = 0%Z).
Proof.
  intros Hv Hbt Hi Hb p. pose proof (block_lchar _ _ Hbt) as Hl. destruct (hints_text c v (x + (if negb w then 1 else 0) + 1)%Z y false (i && false) Hb) as (x1 & w1 & i1 & k & R1).
  destruct (folded_runs (set_em_open_ended k c) Hi v true true 0%Z (y + 1)%Z ltac:(auto) Hl (block_tidy _ _ Hbt)) as (x' & y' & R2 & Hx).
  destruct (folded_facts (em_indent c) (em_best_width c) v Hv Hl (block_tidy _ _ Hbt)) as (F1 & F2 & F4 & F5 & F6 & F7). fold p in F1, F2, F4, F5, F6, F7.
  assert (Efin : fin true v = ends p) by (rewrite F6; destruct v; [congruence|reflexivity]). rewrite Efin in *.
  exists x', y', k. split; [|exact Hx]. unfold hint_text. rewrite F4, F5. fold (hint_text v (Z.to_N (em_best_indent c))). unfold write_folded_scalar.
  match goal with |- runs _ _ (?a ++ 62 :: ?b) _ _ => change (62 :: b) with ([62] ++ b); rewrite (app_assoc a) end.
  refine (runs_seq _ _ _ _ _ _ _ _ (r_write_indicator _ [62] true false false _ _ _ _) _). rewrite app_assoc.
  refine (runs_seq _ _ _ _ _ _ _ _ R1 _). refine (runs_seq _ _ _ _ _ _ _ _ (r_put_break _ _ _ _ _) _). exact (runs_seq _ _ _ [] _ _ _ _ (r_set_ws _ _ _ _ _ _ _) R2).
Qed.
Lemma folded_written_state c u v x y w i : v <> [] -> block_text u v -> (1 <= em_indent c)%Z -> (1 <= em_best_indent c <= 9)%Z -> folds (fits (em_indent c) (em_best_width c)) v -> exists p x' y' k,
  runs (write_folded_scalar v) (mv x y w i c) ((if negb w then [32] else []) ++ 62 :: hint_text p (Z.to_N (em_best_indent c)) ++ chomp_text (chomp_of p) ++
    break_chars (em_line_break c) ++ ltext (break_chars (em_line_break c)) (Z.to_nat (em_indent c)) true p) (Ok tt) (mv x' y' true (ends p) (set_em_open_ended k c)) /\ (ends p = true -> x' = 0%Z) /\
  p <> [] /\ Forall lchar p /\ read_back false p = v /\ hinted p = hinted v /\ ends p = ends v /\ (forall P : char -> Prop, P 10 -> Forall P v -> Forall P p).
Proof.
  intros Hv Hbt Hi Hb Hf. pose proof (block_lchar _ _ Hbt) as Hl. pose proof (block_tidy _ _ Hbt) as Ht.
  destruct (folded_written_any c u v x y w i Hv Hbt Hi Hb) as (x' & y' & k & R & Hx). destruct (folded_facts (em_indent c) (em_best_width c) v Hv Hl Ht) as (F1 & F2 & F4 & F5 & F6 & F7).
  eexists _, x', y', k. split; [exact R|]. split; [exact Hx|]. split; [exact F1|]. split; [exact F2|]. split; [apply (folds_exactly _ _ v Hl Ht), Hf|]. split; [exact F4|]. split; [exact F6|].
  intros P HP H. apply folded_all; assumption.
Qed.
