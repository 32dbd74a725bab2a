(** RoundPlain.v -- reading plain scalars: the scanner on a text made of given pieces. *)
From Coq Require Import Lia ZifyBool ZifyNat ZifyN Bool.
From Verif Require Import Base Utf Chars State Reader Scanner Spec_Styles Spec_RoundTrip RoundScan.
Open Scope N_scope.

(** A character of a plain scalar. *)
Definition pchar (flow : bool) (ch : char) : Prop :=
  is_blankz (Some ch) = false /\ (flow = true -> ch <> 44 /\ ch <> 91 /\ ch <> 93 /\ ch <> 123 /\ ch <> 125 /\ ch <> 58).
Definition hd_word (l : list atom) : Prop := match l with a :: _ => word a = true | [] => False end.
(** The pieces of a plain scalar; [prev]: the piece before is a character. *)
Fixpoint pw (flow prev : bool) (lf : str) (l : list atom) : Prop :=
  match l with
  | [] => prev = true
  | AChar ch :: r => pchar flow ch /\ (ch = 58 -> hd_word r) /\ (ch = 35 -> prev = true) /\ pw flow true lf r
  | ASpace :: r => pw flow false lf r
  | ABreak t ch :: r => brk lf t ch /\ pw flow false lf r
  | _ => False
  end.
Definition gap_of (p : plain_st) : gap := Mk_gap (pl_leading_break p) (pl_trailing_breaks p) (pl_whitespaces p) (pl_leading_blanks p).
Definition with_gap (x : str) (g : gap) (e : mark) : plain_st := Mk_plain x (g_lb g) (g_tb g) (g_ws g) (g_ld g) e.
Lemma with_gap_of p : p = with_gap (pl_string p) (gap_of p) (pl_end p). Proof. destruct p; reflexivity. Qed.
Lemma pw_split flow lf l : forall prev, pw flow prev lf l -> Forall (fun a => awf true lf a \/ exists ch, a = AChar ch) l.
Proof.
  induction l as [|a l IH]; intros prev H; [constructor|]. destruct a; cbn [pw] in H; try contradiction.
  - constructor; [right; eauto|]. apply (IH true). tauto.
  - constructor; [left; exact I|]. apply (IH false). tauto.
  - constructor; [left; apply H|]. apply (IH false). tauto.
Qed.

Section scan.
Variables (s : sst) (flow : bool) (lf : str).
Hypothesis Hid : ideal s.
Hypothesis Hlf : lf_ok lf.
Hypothesis Hfl : negb (flow_level s =? 0) = flow.
Notation at_ := (at_ s).
Notation c_at := (c_at s Hid).
Notation read_at := (read_at s).
Notation skip_at := (skip_at s).

(** The text loop stops at [tail]. *)
Definition pstops (tail : str) : Prop :=
  is_blankz (hd_error tail) = true \/ hd_error tail = Some 58 /\ is_blankz (nth_error tail 1) = true \/
  flow = true /\ exists ch b, tail = ch :: b /\ In ch [44; 91; 93; 123; 125].
Lemma hd_nth (l : str) : nth_error l 0 = hd_error l. Proof. destruct l; reflexivity. Qed.
Lemma hd_nth1 x (l : str) : nth_error (x :: l) 1 = hd_error l. Proof. destruct l; reflexivity. Qed.
Lemma hd_nth3 x y z (l : str) : nth_error (x :: y :: z :: l) 3 = hd_error l. Proof. destruct l; reflexivity. Qed.
Lemma bget_at i tx m : bget i (at_ tx m) = nth_error tx i. Proof. reflexivity. Qed.
Lemma stop_at tail m sm p : pstops tail ->
  (s <- get ;;
    if is_blankz (bget 0 s) then ret (inr p)
    else if plain_bad_colon s then scan_error "while scanning a plain scalar" sm "found unexpected ':'"
    else if plain_stop s then ret (inr p)
    else (fun s => (@Fuel (plain_st + plain_st), s))) (at_ tail m) = (Ok (inr p), at_ tail m).
Proof.
  intros H. rewrite bgt, bget_at, hd_nth. unfold plain_bad_colon, plain_stop. change (flow_level (at_ tail m)) with (flow_level s). rewrite Hfl, !bget_at, !hd_nth.
  destruct H as [H|[[H1 H2]|[H1 (ch & b & -> & H2)]]].
  - rewrite H. reflexivity.
  - rewrite H1. change (is_blankz (Some 58)) with false. cbv iota. cbn [chk]. change (58 =? 58) with true. rewrite H2. cbn [orb andb].
    replace (chk 44 (nth_error tail 1) || chk 63 (nth_error tail 1) || chk 91 (nth_error tail 1) || chk 93 (nth_error tail 1) || chk 123 (nth_error tail 1) || chk 125 (nth_error tail 1)) with false; [rewrite andb_false_r; reflexivity|].
    destruct (nth_error tail 1) as [d|]; [|reflexivity]. revert H2. unfold is_blankz, is_breakz, is_blank, is_space, is_tab, is_break, is_break_c. cbn [chk is_z]. clear. intros H. lia.
  - rewrite H1. cbn [hd_error]. cbn [andb chk].
    assert (E : is_blankz (Some ch) = false /\ (ch =? 58) = false /\ ((ch =? 44) || (ch =? 91) || (ch =? 93) || (ch =? 123) || (ch =? 125)) = true).
    { cbn in H2. destruct H2 as [<-|[<-|[<-|[<-|[<-|[]]]]]]; repeat split. }
    destruct E as (-> & -> & ->). rewrite orb_true_r. reflexivity.
Qed.
Definition text_body (sm : mark) := (fun p : plain_st =>
    s <- get ;;
    if is_blankz (bget 0 s) then ret (inr p)
    else if plain_bad_colon s then
      scan_error "while scanning a plain scalar" sm "found unexpected ':'"
    else if plain_stop s then ret (inr p)
    else
      let p :=
        if pl_leading_blanks p then
          Mk_plain (fold_breaks (pl_string p) (pl_leading_break p) (pl_trailing_breaks p))
                   [] [] (pl_whitespaces p) false (pl_end p)
        else if negb (is_empty (pl_whitespaces p)) then
          Mk_plain (pl_string p ++ pl_whitespaces p) (pl_leading_break p) (pl_trailing_breaks p)
                   [] false (pl_end p)
        else p in
      string <- read_char (pl_string p) ;;
      end_mark <- gets pos ;;
      cache 2 ;;
      ret (inl (Mk_plain string (pl_leading_break p) (pl_trailing_breaks p) (pl_whitespaces p)
                         (pl_leading_blanks p) end_mark))).
Lemma text_stop tail m sm p : pstops tail -> text_body sm p (at_ tail m) = (Ok (inr p), at_ tail m).
Proof.
  intros H. pose proof (stop_at tail m sm p H) as K. unfold text_body. rewrite bgt in *. destruct (is_blankz _); [exact K|]. destruct (plain_bad_colon _); [exact K|].
  destruct (plain_stop _); [exact K|]. discriminate K.
Qed.
Lemma char_goes ch rest m : pchar flow ch -> (ch = 58 -> is_blankz (hd_error rest) = false) ->
  is_blankz (bget 0 (at_ (ch :: rest) m)) = false /\ plain_bad_colon (at_ (ch :: rest) m) = false /\ plain_stop (at_ (ch :: rest) m) = false.
Proof.
  intros [Hb Hf] Hc. split; [exact Hb|]. unfold plain_bad_colon, plain_stop. change (flow_level (at_ (ch :: rest) m)) with (flow_level s). rewrite Hfl.
  change (bget 0 (at_ (ch :: rest) m)) with (Some ch). replace (bget 1 (at_ (ch :: rest) m)) with (hd_error rest) by (destruct rest; reflexivity). split.
  - destruct flow; [|reflexivity]. destruct (Hf eq_refl) as (_ & _ & _ & _ & _ & H). cbn [chk]. replace (ch =? 58) with false by lia. reflexivity.
  - apply orb_false_iff. split.
    + cbn [chk]. destruct (N.eqb_spec ch 58) as [E|]; [rewrite (Hc E)|]; reflexivity.
    + destruct flow; [|reflexivity]. destruct (Hf eq_refl) as (H1 & H2 & H3 & H4 & H5 & _). cbn [chk]. clear -H1 H2 H3 H4 H5. lia.
Qed.
Lemma text_char ch rest m sm x g e : pchar flow ch -> (ch = 58 -> is_blankz (hd_error rest) = false) -> gok g ->
  text_body sm (with_gap x g e) (at_ (ch :: rest) m) =
    (Ok (inl (with_gap (x ++ flush_gap g ++ [ch]) g0 (advance (len_utf8 ch) m))), at_ rest (advance (len_utf8 ch) m)).
Proof.
  intros Hp Hc Gk. destruct (char_goes ch rest m Hp Hc) as (B1 & B2 & B3). unfold text_body. rewrite bgt, B1, B2, B3.
  unfold gok in Gk. unfold with_gap, flush_gap. cbn [pl_leading_blanks pl_string pl_leading_break pl_trailing_breaks pl_whitespaces pl_end]. destruct (g_ld g) eqn:Eg.
  - cbv zeta. cbn [pl_leading_blanks pl_string pl_leading_break pl_trailing_breaks pl_whitespaces pl_end]. rewrite (bok _ _ _ _ _ (read_at _ _ _ _)).
    rewrite (bok (gets pos) _ (at_ rest (advance (len_utf8 ch) m)) (advance (len_utf8 ch) m) _ eq_refl), (bok _ _ _ _ _ (c_at _ _ _)). rewrite Gk, fold_breaks_app, <- app_assoc. reflexivity.
  - destruct Gk as [G1 G2]. rewrite G1, G2. destruct (g_ws g) as [|d ws] eqn:Ew; cbn [is_empty negb]; cbv zeta iota; cbn [pl_leading_blanks pl_string pl_leading_break pl_trailing_breaks pl_whitespaces pl_end].
    + rewrite (bok _ _ _ _ _ (read_at _ _ _ _)), (bok (gets pos) _ (at_ rest (advance (len_utf8 ch) m)) (advance (len_utf8 ch) m) _ eq_refl), (bok _ _ _ _ _ (c_at _ _ _)). reflexivity.
    + rewrite (bok _ _ _ _ _ (read_at _ _ _ _)), (bok (gets pos) _ (at_ rest (advance (len_utf8 ch) m)) (advance (len_utf8 ch) m) _ eq_refl), (bok _ _ _ _ _ (c_at _ _ _)). rewrite <- app_assoc. reflexivity.
Qed.
(** Words. *)
Lemma words_at sm w : forall r prev x g e m rest, forallb word w = true -> pw flow prev lf (w ++ r) -> (match r with a :: _ => word a = false | [] => True end) ->
  w <> [] -> gok g -> pstops (flat r ++ rest) ->
  exists m' e', lr (text_body sm) (with_gap x g e) (at_ (flat w ++ flat r ++ rest) m)
      (with_gap (x ++ flush_gap g ++ map aval w) g0 e') (at_ (flat r ++ rest) m') /\ m_col m' = m_col m + N.of_nat (length w).
Proof.
  induction w as [|a w IH]; intros r prev x g e m rest Hw Hp Hr Hne Hg Hs; [congruence|]. clear Hne.
  cbn in Hw. apply andb_true_iff in Hw. destruct Hw as [Ha Hw]. destruct a as [ch| | | |]; try discriminate Ha; try contradiction.
  cbn [app pw] in Hp. destruct Hp as (P1 & P2 & P3 & P4). set (m1 := advance (len_utf8 ch) m).
  assert (Hc : ch = 58 -> is_blankz (hd_error (flat w ++ flat r ++ rest)) = false).
  { intros E. specialize (P2 E). destruct w as [|b w]; [destruct r as [|b r]; [contradiction|]; cbn in P2; congruence|]. cbn in Hw. destruct b as [c2| | | |]; try discriminate; cbn [app pw] in P4; try contradiction. apply P4. }
  rewrite flat_cons, <- app_assoc. cbn [atext app map aval].
  destruct w as [|b w'].
  - exists m1, m1. split; [|subst m1; cbn; lia]. refine (lr_go _ _ _ _ _ _ _ (text_char ch _ m sm x g e P1 Hc Hg) ltac:(shorter) _).
    cbn [flat flat_map app map]. apply lr_stop, text_stop, Hs.
  - set (w := b :: w') in *. destruct (IH r true (x ++ flush_gap g ++ [ch]) g0 m1 m1 rest Hw P4 Hr ltac:(discriminate) (conj eq_refl eq_refl) Hs) as (m' & e' & L & C).
    exists m', e'. split; [|cbn [length]; subst m1; cbn [advance m_col] in C; unfold str, char in *; lia].
    refine (lr_go _ _ _ _ _ _ _ (text_char ch _ m sm x g e P1 Hc Hg) ltac:(shorter) _). rewrite <- !app_assoc in L. exact L.
Qed.
Lemma plain_text_at sm w r prev x g e m rest : forallb word w = true -> pw flow prev lf (w ++ r) -> (match r with a :: _ => word a = false | [] => True end) ->
  w <> [] -> gok g -> pstops (flat r ++ rest) ->
  exists m' e', Scanner.plain_text sm (with_gap x g e) (at_ (flat w ++ flat r ++ rest) m) =
      (Ok (with_gap (x ++ flush_gap g ++ map aval w) g0 e'), at_ (flat r ++ rest) m') /\ m_col m' = m_col m + N.of_nat (length w).
Proof. intros H1 H2 H3 H4 H5 H6. destruct (words_at sm w r prev x g e m rest H1 H2 H3 H4 H5 H6) as (m' & e' & L & C). exists m', e'. split; [exact (lr_loop _ _ _ _ _ L)|exact C]. Qed.

(** Spaces and breaks. *)
Lemma blanks_at sm ind w : forall x g e tail m, forallb (fun a => negb (word a)) w = true -> Forall (awf true lf) w -> not_gap tail ->
  exists m', plain_blanks sm ind (with_gap x g e) (at_ (flat w ++ tail) m) = (Ok (with_gap x (fold_left gstep w g) e), at_ tail m') /\ gcol (m_col m) w <= m_col m'.
Proof.
  intros x g e tail m Hw Hf Ht. unfold plain_blanks.
  match goal with |- context [loop ?b _ _] => set (body := b) end.
  enough (H : forall g m, exists m', lr body (with_gap x g e) (at_ (flat w ++ tail) m) (with_gap x (fold_left gstep w g) e) (at_ tail m') /\ gcol (m_col m) w <= m_col m').
  { destruct (H g m) as (m' & L & C). exists m'. split; [apply lr_loop, L|exact C]. }
  clear g m. induction w as [|a w IH]; intros g m.
  - exists m. cbn [flat flat_map app fold_left gcol]. split; [|lia]. apply lr_stop. subst body. cbv beta iota. rewrite bgt.
    rewrite bget_at, hd_nth. destruct Ht as [-> ->]. reflexivity.
  - pose proof (no_lf_next true lf Hlf w tail) as Hlf'.
    cbn in Hw. apply andb_true_iff in Hw. destruct Hw as [Ha Hw]. inversion Hf as [|? ? Fa Ff]; subst. specialize (IH Hw Ff). specialize (Hlf' Ff Hw Ht).
    destruct a as [| | | |t c]; try discriminate Ha; cbn [awf] in Fa; rewrite flat_cons, <- app_assoc; set (rest := flat w ++ tail) in *; cbn [atext app fold_left gcol].
    + destruct (IH (gstep g ASpace) (advance (len_utf8 32) m)) as (m' & L & C). exists m'. split; [|exact C].
      refine (lr_go _ _ _ _ _ _ _ _ _ L); [|shorter]. subst body. cbv beta iota. rewrite bgt.
      rewrite bget_at. cbn [nth_error]. change (is_blank (Some 32)) with true. change (is_tab (Some 32)) with false. rewrite andb_false_r. cbv iota.
      destruct g as [lb tb ws ld]. unfold with_gap. cbn [g_ld g_lb g_tb g_ws gstep pl_leading_blanks pl_whitespaces]. destruct ld; cbn [negb].
      * rewrite (bok _ _ _ _ _ (skip_at _ _ _)), (bok _ _ _ _ _ (c_at _ _ _)). reflexivity.
      * rewrite (bok _ _ _ _ _ (read_at _ _ _ _)), (bok _ _ _ _ _ (c_at _ _ _)). reflexivity.
    + assert (Ht0 : exists d t', t = d :: t' /\ is_blank (Some d) = false /\ is_break_c d = true).
      { destruct Fa as [[-> ->]|[[-> | ->] ->]]; [|eexists _, _; repeat split|eexists _, _; repeat split]. destruct Hlf as [-> |[-> | ->]]; eexists _, _; repeat split. }
      destruct Ht0 as (d & t' & Et & Hb1 & Hb2).
      assert (B : forall k, bget 0 (at_ (t ++ rest) k) = Some d) by (intros k; rewrite Et; reflexivity).
      assert (Hm : forall k k', (meas (at_ rest k) < meas (at_ (t ++ rest) k'))%nat) by (intros; rewrite Et; shorter).
      destruct (g_ld g) eqn:Eld.
      * destruct (rlb_at s lf Hlf t c rest m (g_tb g) Fa Hlf') as [n E]. destruct (IH (gstep g (ABreak t c)) (next_line n m)) as (m' & L & C). exists m'. split; [|exact C].
        refine (lr_go _ _ _ _ _ _ _ _ _ L); [|apply Hm]. subst body. cbv beta iota. rewrite bgt, B, Hb1. cbn [is_break]. rewrite Hb2.
        unfold with_gap. cbn [pl_leading_blanks pl_trailing_breaks pl_leading_break]. rewrite Eld.
        rewrite (bok _ _ _ _ _ (c_at _ _ _)), (bok _ _ _ _ _ E), (bok _ _ _ _ _ (c_at _ _ _)). cbn [gstep]. rewrite Eld. reflexivity.
      * destruct (rlb_at s lf Hlf t c rest m (g_lb g) Fa Hlf') as [n E]. destruct (IH (gstep g (ABreak t c)) (next_line n m)) as (m' & L & C). exists m'. split; [|exact C].
        refine (lr_go _ _ _ _ _ _ _ _ _ L); [|apply Hm]. subst body. cbv beta iota. rewrite bgt, B, Hb1. cbn [is_break]. rewrite Hb2.
        unfold with_gap. cbn [pl_leading_blanks pl_trailing_breaks pl_leading_break]. rewrite Eld.
        rewrite (bok _ _ _ _ _ (c_at _ _ _)), (bok _ _ _ _ _ E), (bok _ _ _ _ _ (c_at _ _ _)). cbn [gstep]. rewrite Eld. reflexivity.
Qed.

(** What follows the scalar: spaces and line breaks [q], then [after]. *)
Definition qchar (ch : char) : Prop := ch = 32 \/ is_break_c ch = true.
Fixpoint qcol (x : N) (q : str) : N := match q with [] => x | ch :: r => qcol (if is_break_c ch then 0 else x + 1) r end.
Lemma tail_at sm ind : forall n q p after m, (length q < n)%nat -> Forall qchar q -> not_gap after ->
  exists p' m', plain_blanks sm ind p (at_ (q ++ after) m) = (Ok p', at_ after m') /\ pl_string p' = pl_string p /\ pl_end p' = pl_end p /\ m_col m' = qcol (m_col m) q /\ (pl_leading_blanks p = true \/ existsb is_break_c q = true -> pl_leading_blanks p' = true).
Proof.
  intros n q p after m Hn Hq Ha. unfold plain_blanks.
  match goal with |- context [loop ?b _ _] => set (body := b) end.
  enough (H : exists p' m', lr body p (at_ (q ++ after) m) p' (at_ after m') /\ pl_string p' = pl_string p /\ pl_end p' = pl_end p /\ m_col m' = qcol (m_col m) q /\ (pl_leading_blanks p = true \/ existsb is_break_c q = true -> pl_leading_blanks p' = true)).
  { destruct H as (p' & m' & L & C). exists p', m'. split; [apply lr_loop, L|exact C]. }
  revert q p m Hn Hq. induction n as [|n IH]; intros q p m Hn Hq; [lia|]. destruct q as [|ch q].
  - exists p, m. split; [|repeat split; intros [D|D]; [exact D|discriminate D]]. apply lr_stop. subst body. cbv beta iota. rewrite bgt, bget_at. cbn [app]. rewrite hd_nth. destruct Ha as [-> ->]. reflexivity.
  - inversion Hq as [|? ? Hc Hq']; subst. cbn [length] in Hn. destruct (is_break_c ch) eqn:Eb.
    + (* a break, perhaps of two characters *)
      assert (K : forall x, exists q2 k, (length q2 <= length q)%nat /\ Forall qchar q2 /\ qcol 0 q2 = qcol 0 q /\ exists x', read_line_break x (at_ ((ch :: q) ++ after) m) = (Ok x', at_ (q2 ++ after) (next_line k m))).
      { intros x. unfold read_line_break. change (buffer (at_ ((ch :: q) ++ after) m)) with (ch :: q ++ after). cbv iota.
        destruct ((ch =? 13) && chk 10 (nth_error (q ++ after) 0)) eqn:E2.
        - apply andb_true_iff in E2. destruct E2 as [E1 E2].
          destruct q as [|d q2]; cbn [app] in E2.
          + exfalso. destruct Ha as [_ Ha]. destruct after as [|d after]; [discriminate|]. cbn in E2, Ha. assert (d = 10) as -> by lia. discriminate Ha.
          + cbn in E2. assert (d = 10) as -> by lia. exists q2, 2. split; [cbn; lia|]. split; [inversion Hq'; assumption|]. split; [reflexivity|]. eexists. reflexivity.
        - rewrite Eb. exists q, (len_utf8 ch). split; [lia|]. split; [exact Hq'|]. split; [reflexivity|]. eexists. reflexivity. }
      assert (Hbl : is_blank (Some ch) = false) by (revert Eb; clear; unfold is_break_c, is_blank, is_space, is_tab; cbn [chk]; lia).
      destruct (pl_leading_blanks p) eqn:El.
      * destruct (K (pl_trailing_breaks p)) as (q2 & k & L1 & L2 & L3 & x' & E).
        destruct (IH q2 (Mk_plain (pl_string p) (pl_leading_break p) x' (pl_whitespaces p) true (pl_end p)) (next_line k m)) as (p' & m' & L & P1 & P2 & C & B5); [lia|exact L2|].
        exists p', m'. split; [|split; [exact P1|split; [exact P2|split; [rewrite C; cbn [qcol]; rewrite Eb; exact L3|intros _; apply B5; left; reflexivity]]]].
        refine (lr_go _ _ _ _ _ _ _ _ _ L); [|shorter]. subst body. cbv beta iota. rewrite bgt, bget_at. cbn [app nth_error]. rewrite Hbl. cbn [is_break]. rewrite Eb.
        rewrite (bok _ _ _ _ _ (c_at _ _ _)), El, (bok _ _ _ _ _ E), (bok _ _ _ _ _ (c_at _ _ _)). reflexivity.
      * destruct (K (pl_leading_break p)) as (q2 & k & L1 & L2 & L3 & x' & E).
        destruct (IH q2 (Mk_plain (pl_string p) x' (pl_trailing_breaks p) [] true (pl_end p)) (next_line k m)) as (p' & m' & L & P1 & P2 & C & B5); [lia|exact L2|].
        exists p', m'. split; [|split; [exact P1|split; [exact P2|split; [rewrite C; cbn [qcol]; rewrite Eb; exact L3|intros _; apply B5; left; reflexivity]]]].
        refine (lr_go _ _ _ _ _ _ _ _ _ L); [|shorter]. subst body. cbv beta iota. rewrite bgt, bget_at. cbn [app nth_error]. rewrite Hbl. cbn [is_break]. rewrite Eb.
        rewrite (bok _ _ _ _ _ (c_at _ _ _)), El, (bok _ _ _ _ _ E), (bok _ _ _ _ _ (c_at _ _ _)). reflexivity.
    + destruct Hc as [-> |Hc]; [|congruence]. destruct (pl_leading_blanks p) eqn:El.
      * destruct (IH q p (advance (len_utf8 32) m)) as (p' & m' & L & P1 & P2 & C & B5); [lia|exact Hq'|]. exists p', m'. split; [|split; [exact P1|split; [exact P2|split; [rewrite C; reflexivity|intros _; apply B5; left; exact El]]]].
        refine (lr_go _ _ _ _ _ _ _ _ _ L); [|shorter]. subst body. cbv beta iota. rewrite bgt, bget_at. cbn [app nth_error]. change (is_blank (Some 32)) with true. change (is_tab (Some 32)) with false. rewrite andb_false_r, El.
        cbn [negb]. rewrite (bok _ _ _ _ _ (skip_at _ _ _)), (bok _ _ _ _ _ (c_at _ _ _)). reflexivity.
      * destruct (IH q (Mk_plain (pl_string p) (pl_leading_break p) (pl_trailing_breaks p) (pl_whitespaces p ++ [32]) false (pl_end p)) (advance (len_utf8 32) m)) as (p' & m' & L & P1 & P2 & C & B5); [lia|exact Hq'|]. exists p', m'. split; [|split; [exact P1|split; [exact P2|split; [rewrite C; reflexivity|intros [D|D]; [congruence|apply B5; right; exact D]]]]].
        refine (lr_go _ _ _ _ _ _ _ _ _ L); [|shorter]. subst body. cbv beta iota. rewrite bgt, bget_at. cbn [app nth_error]. change (is_blank (Some 32)) with true. change (is_tab (Some 32)) with false. rewrite andb_false_r, El.
        cbn [negb]. rewrite (bok _ _ _ _ _ (read_at _ _ _ _)), (bok _ _ _ _ _ (c_at _ _ _)). reflexivity.
Qed.

(** The whole loop. *)
Definition outer (sm : mark) (ind : Z) := (fun p : plain_st =>
    cache 4 ;;
    s <- get ;;
    if at_document_indicator s then ret (inr p)
    else if chk cHASH (bget 0 s) then ret (inr p)
    else
      p <- Scanner.plain_text sm p ;;
      s <- get ;;
      if negb (is_blank (bget 0 s) || is_break (bget 0 s)) then ret (inr p)
      else
        cache 1 ;;
        p <- plain_blanks sm ind p ;;
        s <- get ;;
        if (flow_level s =? 0) && (bcol s <? ind)%Z then ret (inr p) else ret (inl p)).
Lemma white_blankz x : white x <-> is_blankz (Some x) = true.
Proof. unfold white, blank, line_break, is_blankz, is_breakz, is_blank, is_space, is_tab, is_break, is_break_c. cbn [chk is_z]. rewrite !orb_true_iff, !N.eqb_eq. intuition discriminate. Qed.
Lemma white_behind_blankz b : white_behind b -> is_blankz (hd_error b) = true.
Proof. destruct b as [|x b]; [reflexivity|]. cbn [white_behind hd_error]. apply white_blankz. Qed.
Lemma not_white_gap after : (forall x b, after = x :: b -> ~ white x) -> not_gap after.
Proof.
  intros H. destruct after as [|x b]; [split; reflexivity|]. specialize (H x b eq_refl). unfold not_gap. cbn [hd_error].
  destruct (is_blankz (Some x)) eqn:E; [apply white_blankz in E; contradiction|]. unfold is_blankz, is_breakz in E. apply orb_false_iff in E. destruct E as [E1 E2]. apply orb_false_iff in E2. tauto.
Qed.
Lemma qcol_break q a y b x : q = a ++ y :: b -> line_break y -> Forall space b -> qcol x q = N.of_nat (length b).
Proof.
  intros -> Hy Hb. revert x. induction a as [|c a IH]; intros x; cbn [app qcol]; [|apply IH].
  replace (is_break_c y) with true by (symmetry; unfold is_break_c; destruct Hy as [-> |[-> |[-> |[-> | ->]]]]; reflexivity).
  assert (K : forall x, qcol x b = x + N.of_nat (length b)); [|rewrite K; lia]. induction Hb as [|c b Hc _ IH]; intros z; cbn [qcol length]; [lia|].
  rewrite Hc. change (is_break_c 32) with false. cbv iota. rewrite IH. lia.
Qed.
Lemma qchars q : Forall (fun x => space x \/ line_break x) q -> Forall qchar q.
Proof.
  apply Forall_impl. intros x [H|H]; [left; exact H|right]. unfold is_break_c. destruct H as [-> |[-> |[-> |[-> | ->]]]]; reflexivity.
Qed.
Lemma not_blank_gap t : not_gap t -> is_blank (hd_error t) || is_break (hd_error t) = false.
Proof. intros [-> ->]. reflexivity. Qed.
Lemma doc_at t m : 1 <= m_col m -> at_document_indicator (at_ t m) = false.
Proof. intros H. unfold at_document_indicator. change (m_col (pos (at_ t m))) with (m_col m). replace (m_col m =? 0) with false by lia. reflexivity. Qed.

Lemma pw_words w r : forallb word w = true -> w <> [] -> forall prev, pw flow prev lf (w ++ r) -> pw flow true lf r.
Proof.
  induction w as [|a w IH]; [congruence|]. intros H _ prev Hp. cbn in H. apply andb_true_iff in H. destruct H as [H1 H2]. destruct a as [ch| | | |]; try discriminate H1; cbn [app pw] in Hp; try contradiction.
  destruct Hp as (_ & _ & _ & Hp). destruct w as [|b w]; [exact Hp|]. apply (IH H2 ltac:(discriminate) true Hp).
Qed.
Lemma pw_gaps gg r : forallb (fun a => negb (word a)) gg = true -> gg <> [] -> forall prev, pw flow prev lf (gg ++ r) -> Forall (awf true lf) gg /\ pw flow false lf r.
Proof.
  induction gg as [|a w IH]; [congruence|]. intros H _ prev Hp. cbn in H. apply andb_true_iff in H. destruct H as [H1 H2]. destruct a as [ | | | |t ch]; try discriminate H1; cbn [app pw] in Hp.
  - destruct w as [|b w]; [split; [constructor; [exact I|constructor]|exact Hp]|]. destruct (IH H2 ltac:(discriminate) false Hp). split; [constructor; [exact I|assumption]|assumption].
  - destruct Hp as [Hb Hp]. destruct w as [|b w]; [split; [constructor; [exact Hb|constructor]|exact Hp]|]. destruct (IH H2 ltac:(discriminate) false Hp). split; [constructor; [exact Hb|assumption]|assumption].
Qed.
Lemma brk_hd t c rest : brk lf t c -> is_blankz (hd_error (t ++ rest)) = true.
Proof. intros [[-> ->]|[[-> | ->] ->]]; [|reflexivity|reflexivity]. destruct Hlf as [-> |[-> | ->]]; reflexivity. Qed.
Lemma pw_gap_hd w a l1 rest : forallb word w = true -> w <> [] -> word a = false -> forall prev, pw flow prev lf (w ++ a :: l1) -> is_blankz (hd_error (flat (a :: l1) ++ rest)) = true.
Proof.
  intros Hw Hne Ha prev Hp. apply (pw_words _ _ Hw Hne) in Hp. destruct a as [ | | | |t c]; try discriminate Ha; cbn [pw] in Hp; [reflexivity|]. rewrite flat_cons, <- app_assoc. apply (brk_hd t c), Hp.
Qed.
Lemma pw_gap_tail w gg r : forallb word w = true -> w <> [] -> forallb (fun a => negb (word a)) gg = true -> gg <> [] -> pw flow false lf (w ++ gg ++ r) -> Forall (awf true lf) gg /\ pw flow false lf r /\ r <> [].
Proof.
  intros Hw Hne Hg Hne2 Hp. apply (pw_words _ _ Hw Hne) in Hp. apply (pw_gaps _ _ Hg Hne2) in Hp. destruct Hp as [H1 H2]. split; [exact H1|]. split; [exact H2|]. intros ->. discriminate H2.
Qed.
Lemma pw_hd_gap r rest prev : pw flow prev lf r -> hd_word r -> not_gap (flat r ++ rest).
Proof.
  destruct r as [|a r]; [contradiction|]. intros Hp Hh. cbn in Hh. destruct a as [ch| | | |]; try discriminate Hh; cbn [pw] in Hp; try contradiction. destruct Hp as ([Hb _] & _).
  rewrite flat_cons. unfold not_gap. cbn [atext app hd_error]. unfold is_blankz, is_breakz in Hb. apply orb_false_iff in Hb. destruct Hb as [E1 E2]. apply orb_false_iff in E2. tauto.
Qed.
Lemma den_words2 w l1 g : forallb word w = true -> w <> [] -> den g (w ++ l1) = flush_gap g ++ map aval w ++ den g0 l1.
Proof.
  destruct w as [|a w]; [congruence|]. cbn. intros H _. apply andb_true_iff in H. destruct H as [-> H]. rewrite den_words by exact H. reflexivity.
Qed.
Lemma den_word_hd r g : hd_word r -> flush_gap g ++ den g0 r = den g r.
Proof. destruct r as [|a r]; [contradiction|]. cbn. intros ->. reflexivity. Qed.
Section tail.
Variables (sm : mark) (ind : Z) (q after : str).
Hypothesis Hfo : plain_follow flow ind q after.
Lemma fo_stops : q <> [] \/ pstops after.
Proof.
  destruct Hfo as (_ & _ & H). destruct H as [-> |[(b & -> & H)|[(Hf & x & b & -> & H)|[(H & _)|(a & y & b & -> & _)]]]]; try (left; destruct a; discriminate); auto; right.
  - left. reflexivity.
  - right. left. split; [reflexivity|]. rewrite hd_nth1. apply white_behind_blankz, H.
  - right. right. eauto.
Qed.
Lemma q_gap : q <> [] -> is_blank (hd_error (q ++ after)) || is_break (hd_error (q ++ after)) = true.
Proof.
  intros Hq. destruct Hfo as (H & _). destruct q as [|c0 q0]; [congruence|]. inversion H as [|? ? Hx _]; subst. cbn [app hd_error].
  destruct Hx as [-> |Hx]; [reflexivity|]. cbn [is_break]. unfold is_break_c. destruct Hx as [-> |[-> |[-> |[-> | ->]]]]; reflexivity.
Qed.
Lemma q_blankz : q <> [] -> is_blankz (hd_error (q ++ after)) = true.
Proof. intros Hq. apply q_gap in Hq. unfold is_blankz, is_breakz. apply orb_true_iff in Hq. destruct Hq as [-> | ->]; rewrite ?orb_true_r; reflexivity. Qed.
(** At the end of the words. *)
Lemma ends_at p m : exists p' m', pl_string p' = pl_string p /\ (existsb is_break_c q = true -> pl_leading_blanks p' = true) /\
   ((q = [] /\ p' = p /\ m' = m) \/
    (q <> [] /\ exists p1 m1, plain_blanks sm ind p (at_ (q ++ after) m) = (Ok p1, at_ after m1) /\
      (((flow_level s =? 0) && (Z.of_N (m_col m1) <? ind)%Z = true /\ p' = p1 /\ m' = m1) \/
       ((flow_level s =? 0) && (Z.of_N (m_col m1) <? ind)%Z = false /\ outer sm ind p1 (at_ after m1) = (Ok (inr p'), at_ after m'))))).
Proof.
  destruct q as [|c0 q0] eqn:Eq; [exists p, m; split; [reflexivity|]; split; [discriminate|]; left; auto|]. rewrite <- Eq in *. assert (Hne : q <> []) by (rewrite Eq; discriminate). clear Eq c0 q0.
  destruct Hfo as (Hq & Ha & H). pose proof (not_white_gap after Ha) as Hng. destruct (tail_at sm ind (S (length q)) q p after m ltac:(lia) (qchars _ Hq) Hng) as (p1 & m1 & E & S1 & S2 & C & B5).
  exists p1, m1. split; [exact S1|]. split; [intros D; apply B5; right; exact D|]. right. split; [exact Hne|]. exists p1, m1. split; [exact E|].
  destruct ((flow_level s =? 0) && (Z.of_N (m_col m1) <? ind)%Z) eqn:Ef; [left; auto|]. right. split; [reflexivity|].
  unfold outer. rewrite (bok _ _ _ _ _ (c_at _ _ _)), bgt. destruct (at_document_indicator (at_ after m1)) eqn:Ed; [reflexivity|]. destruct (chk 35 (bget 0 (at_ after m1))) eqn:Eh; [reflexivity|].
  assert (Hst : pstops after).
  { destruct H as [-> |[(b & -> & H)|[(Hf & x & b & -> & H)|[(_ & b & ->)|(a & y & b & Eq & Hy & Hb & H)]]]].
    - left. reflexivity.
    - right. left. split; [reflexivity|]. rewrite hd_nth1. apply white_behind_blankz, H.
    - right. right. eauto.
    - discriminate Eh.
    - exfalso. rewrite (qcol_break q a y b _ Eq Hy Hb) in C. destruct H as [[Hf Hl]|[-> (x & r & Hx & -> & Hr)]].
      + rewrite <- Hfl in Hf. apply negb_false_iff in Hf. rewrite Hf in Ef. cbn [andb] in Ef. rewrite C in Ef. clear -Ef Hl. lia.
      + cbn [length] in C. unfold at_document_indicator in Ed. change (m_col (pos (at_ ([x; x; x] ++ r) m1))) with (m_col m1) in Ed. rewrite C in Ed. change (N.of_nat 0 =? 0) with true in Ed.
        cbn [andb app] in Ed. rewrite !bget_at, hd_nth3, (white_behind_blankz r Hr) in Ed. destruct Hx as [-> | ->]; discriminate Ed. }
  change (Scanner.plain_text sm p1) with (loop (text_body sm) p1). rewrite (bok _ _ _ _ _ (lr_loop _ _ _ _ _ (lr_stop (text_body sm) p1 _ _ _ (text_stop after m1 sm p1 Hst)))), bgt.
  rewrite bget_at, hd_nth, (not_blank_gap _ Hng). reflexivity.
Qed.
Lemma plain_loop_at K : 1 <= K -> (flow = false -> (ind <= Z.of_N K)%Z) -> forall n l x g e m, (length l < n)%nat -> pw flow false lf l -> hd_word l -> gok g ->
  cols K (m_col m + 1) (tl l) -> at_document_indicator (at_ (flat l ++ q ++ after) m) = false ->
  exists p' m', lr (outer sm ind) (with_gap x g e) (at_ (flat l ++ q ++ after) m) p' (at_ after m') /\ pl_string p' = x ++ den g l /\ (existsb is_break_c q = true -> pl_leading_blanks p' = true).
Proof.
  intros HK HKi. induction n as [|n IH]; intros l x g e m Hn Hp Hh Gk Hc Hd; [lia|].
  pose proof (span_app word l) as El. pose proof (span_all word l) as Hw. pose proof (span_hd word l) as Hh1.
  assert (Hne : fst (span word l) <> []) by (destruct l as [|a l]; [contradiction|]; cbn in Hh; cbn [span]; rewrite Hh; destruct (span word l); discriminate).
  destruct (span word l) as [w l1]. cbn [fst snd] in *. subst l.
  assert (Hc1 : cols K (m_col m + N.of_nat (length w)) l1).
  { destruct w as [|a w]; [congruence|]. cbn [app tl] in Hc. cbn in Hw. apply andb_true_iff in Hw. apply (cols_word_app w l1 (proj2 Hw)) in Hc. cbn [length]. replace (m_col m + N.of_nat (S (length w))) with (m_col m + 1 + N.of_nat (length w)) by lia. exact Hc. }
  assert (Hst : pstops (flat l1 ++ q ++ after)).
  { destruct l1 as [|a l1].
    - cbn [flat flat_map app]. destruct fo_stops as [H|H]; [left; apply q_blankz, H|]. assert (D : q = [] \/ q <> []) by (clear; destruct q; [left; reflexivity|right; discriminate]). destruct D as [D|D]; [rewrite D; exact H|left; apply q_blankz, D].
    - left. apply (pw_gap_hd w a l1 _ Hw Hne Hh1 false Hp). }
  rewrite flat_app, <- app_assoc in *. destruct (plain_text_at sm w l1 false x g e m (q ++ after) Hw Hp Hh1 Hne Gk Hst) as (m1 & e1 & E1 & C1).
  assert (B : outer sm ind (with_gap x g e) (at_ (flat w ++ flat l1 ++ q ++ after) m) =
    (if negb (is_blank (hd_error (flat l1 ++ q ++ after)) || is_break (hd_error (flat l1 ++ q ++ after))) then ret (inr (with_gap (x ++ flush_gap g ++ map aval w) g0 e1))
      else cache 1 ;; p <- plain_blanks sm ind (with_gap (x ++ flush_gap g ++ map aval w) g0 e1) ;;
        s <- get ;; if (flow_level s =? 0) && (bcol s <? ind)%Z then ret (inr p) else ret (inl p)) (at_ (flat l1 ++ q ++ after) m1)).
  { unfold outer. rewrite (bok _ _ _ _ _ (c_at _ _ _)), bgt, Hd.
    replace (chk 35 (bget 0 (at_ (flat w ++ flat l1 ++ q ++ after) m))) with false.
    2: { destruct w as [|a w]; [congruence|]. cbn in Hw. destruct a as [ch| | | |]; try discriminate Hw; cbn [app pw] in Hp; try contradiction.
         change (bget 0 (at_ (flat (AChar ch :: w) ++ flat l1 ++ q ++ after) m)) with (Some ch). cbn [chk]. destruct (N.eqb_spec ch 35) as [Ech|]; [|reflexivity]. destruct Hp as (_ & _ & Hp & _). discriminate (Hp Ech). }
    rewrite (bok _ _ _ _ _ E1), bgt, bget_at, hd_nth. reflexivity. }
  pose proof (den_words2 w l1 g Hw Hne) as Dw.
  destruct l1 as [|a0 l1'].
  - (* the last word *)
    cbn [flat flat_map app] in *. destruct (ends_at (with_gap (x ++ flush_gap g ++ map aval w) g0 e1) m1) as (p' & m' & S' & B5 & [(Eq & -> & ->)|(Hq & p1 & m2 & E2 & [(Ef & -> & ->)|(Ef & E3)])]).
    + exists (with_gap (x ++ flush_gap g ++ map aval w) g0 e1), m1. split.
      * apply lr_stop. rewrite B. clear B. subst q. cbn [app]. rewrite (not_blank_gap after); [reflexivity|]. apply not_white_gap, Hfo.
      * split; [|exact B5]. rewrite Dw. cbn [den flush_gap g0 g_ld g_ws]. rewrite app_nil_r. reflexivity.
    + exists p1, m2. split.
      * apply lr_stop. rewrite B. clear B. rewrite (q_gap Hq). cbn [negb]. rewrite (bok _ _ _ _ _ (c_at _ _ _)), (bok _ _ _ _ _ E2), bgt. change (flow_level (at_ after m2)) with (flow_level s). change (bcol (at_ after m2)) with (Z.of_N (m_col m2)). rewrite Ef. reflexivity.
      * split; [|exact B5]. rewrite S', Dw. cbn [with_gap pl_string den flush_gap g0 g_ld g_ws]. rewrite app_nil_r. reflexivity.
    + exists p', m'. split.
      * refine (lr_go _ _ _ _ _ _ _ _ _ (lr_stop _ _ _ _ _ E3)); [|].
        -- rewrite B. clear B. rewrite (q_gap Hq). cbn [negb]. rewrite (bok _ _ _ _ _ (c_at _ _ _)), (bok _ _ _ _ _ E2), bgt. change (flow_level (at_ after m2)) with (flow_level s). change (bcol (at_ after m2)) with (Z.of_N (m_col m2)). rewrite Ef. reflexivity.
        -- apply meas_lt. rewrite !app_length. clear -Hq. destruct q; [congruence|]. cbn [length]. lia.
      * split; [|exact B5]. rewrite S', Dw. cbn [with_gap pl_string den flush_gap g0 g_ld g_ws]. rewrite app_nil_r. reflexivity.
  - set (l1 := a0 :: l1') in *. pose proof (span_app (fun a => negb (word a)) l1) as El. pose proof (span_all (fun a => negb (word a)) l1) as Hg. pose proof (span_hd (fun a => negb (word a)) l1) as Hh2.
    assert (Hne1 : fst (span (fun a => negb (word a)) l1) <> []).
    { subst l1. cbn [span]. rewrite Hh1. cbn [negb]. destruct (span _ l1'). discriminate. }
    destruct (span _ l1) as [gg r]. cbn [fst snd] in *. rewrite El in *. clear El a0 l1' l1 Hh1.
    destruct (pw_gap_tail w gg r Hw Hne Hg Hne1 Hp) as (Fg & Pr & Hrne).
    assert (Hr : match r with a :: _ => word a = true | [] => True end) by (destruct r as [|a r]; [exact I|]; destruct (word a); [reflexivity|discriminate Hh2]).
    assert (Hhr : hd_word r) by (destruct r as [|a r]; [congruence|exact Hr]).
    rewrite flat_app, <- app_assoc in *.
    destruct (blanks_at sm ind gg (x ++ flush_gap g ++ map aval w) g0 e1 (flat r ++ q ++ after) m1 Hg Fg (pw_hd_gap r _ false Pr Hhr)) as (m2 & E2 & C2).
    pose proof (gok_fold gg g0 (conj eq_refl eq_refl)) as Gk2. set (G := fold_left gstep gg g0) in *.
    apply (cols_gap_app _ _ Hg) in Hc1. assert (Hc2 : cols K (m_col m2) r) by (eapply cols_mono; [|exact Hc1]; etransitivity; [apply gcol_mono, N.eq_le_incl; symmetry; exact C1|exact C2]).
    pose proof (cols_hd _ _ _ Hc2 Hr) as Hm2.
    assert (Hc3 : cols K (m_col m2 + 1) (tl r)) by (destruct r as [|a r]; [congruence|]; destruct a; try discriminate Hr; apply Hc2).
    destruct (IH r (x ++ flush_gap g ++ map aval w) G e1 m2) as (p' & m3 & L & S3 & B5); [rewrite !app_length in Hn; destruct gg; [congruence|]; cbn [length] in Hn; lia|exact Pr|exact Hhr|exact Gk2|exact Hc3|apply doc_at; lia|].
    exists p', m3. split.
    + refine (lr_go _ _ _ _ _ _ _ _ _ L).
      * rewrite B. clear B. replace (is_blank _ || is_break _) with true.
        2: { symmetry. destruct gg as [|a gg]; [congruence|]. inversion Fg as [|? ? Ha _]; subst. cbn in Hg. destruct a as [| | | |t c]; try discriminate Hg; [reflexivity|].
           cbn [awf] in Ha. destruct Ha as [[-> ->]|[[-> | ->] ->]]; [|reflexivity|reflexivity]. destruct Hlf as [-> |[-> | ->]]; reflexivity. }
        cbn [negb]. rewrite (bok _ _ _ _ _ (c_at _ _ _)), (bok _ _ _ _ _ E2), bgt. change (flow_level (at_ (flat r ++ q ++ after) m2)) with (flow_level s). change (bcol (at_ (flat r ++ q ++ after) m2)) with (Z.of_N (m_col m2)).
        replace ((flow_level s =? 0) && _) with false; [reflexivity|]. symmetry. destruct (flow_level s =? 0) eqn:Ef; [|reflexivity]. cbn [negb] in Hfl. specialize (HKi (eq_sym Hfl)). cbn [andb]. clear -HKi Hm2. lia.
      * apply meas_lt. rewrite !app_length. destruct gg as [|a gg]; [congruence|]. rewrite flat_cons, app_length. inversion Fg as [|? ? Ha _]; subst.
        assert (0 < length (atext a))%nat; [|unfold str, char in *; lia].
        destruct a as [| | | |t c]; cbn [atext length]; try lia. cbn [awf] in Ha. destruct Ha as [[-> ->]|[[-> | ->] ->]]; cbn [length]; try lia. destruct Hlf as [-> |[-> | ->]]; cbn [length]; lia.
    + split; [|exact B5]. rewrite S3, Dw, (den_gap gg r Hg Hr). fold G. rewrite (den_word_hd r G Hhr), <- !app_assoc. reflexivity.
Qed.
End tail.
(** As [plain_at], with all of the state afterwards. *)
Theorem plain_at_state q after l m K : plain_follow flow (indent s + 1) q after -> 1 <= K -> (flow = false -> (indent s + 1 <= Z.of_N K)%Z) ->
  pw flow false lf l -> hd_word l -> cols K (m_col m + 1) (tl l) -> at_document_indicator (at_ (flat l ++ q ++ after) m) = false ->
  exists (e : mark) (al : bool) (m' : mark), scan_plain_scalar (at_ (flat l ++ q ++ after) m) = (Ok (Mk_token (TScalar (den g0 l) SPlain) m e), set_pos m' (set_buffer after (set_simple_key_allowed al s))) /\
    (existsb is_break_c q = true -> al = true).
Proof.
  intros Hfo HK HKi Hp Hh Hc Hd. destruct (plain_loop_at m (indent s + 1) q after Hfo K HK HKi (S (length l)) l [] g0 m m ltac:(lia) Hp Hh (conj eq_refl eq_refl) Hc Hd) as (p' & m' & L & Ep & B5).
  unfold scan_plain_scalar. rewrite bgt. cbv zeta. change (indent (at_ (flat l ++ q ++ after) m)) with (indent s). change (pos (at_ (flat l ++ q ++ after) m)) with m.
  match goal with |- context [loop ?b] => change b with (outer m (indent s + 1)) end. change (Mk_plain [] [] [] [] false m) with (with_gap [] g0 m). rewrite (bok _ _ _ _ _ (lr_loop _ _ _ _ _ L)).
  cbn [app] in Ep. rewrite Ep. exists (pl_end p'), (pl_leading_blanks p' || simple_key_allowed s), m'. split; [|intros D; rewrite (B5 D); reflexivity]. destruct (pl_leading_blanks p').
  - reflexivity.
  - destruct s; reflexivity.
Qed.
Theorem plain_at q after l m K : plain_follow flow (indent s + 1) q after -> 1 <= K -> (flow = false -> (indent s + 1 <= Z.of_N K)%Z) ->
  pw flow false lf l -> hd_word l -> cols K (m_col m + 1) (tl l) -> at_document_indicator (at_ (flat l ++ q ++ after) m) = false ->
  exists e s', scan_plain_scalar (at_ (flat l ++ q ++ after) m) = (Ok (Mk_token (TScalar (den g0 l) SPlain) m e), s') /\ buffer s' = after /\ eof s' = true.
Proof.
  intros Hfo HK HKi Hp Hh Hc Hd. destruct (plain_loop_at m (indent s + 1) q after Hfo K HK HKi (S (length l)) l [] g0 m m ltac:(lia) Hp Hh (conj eq_refl eq_refl) Hc Hd) as (p' & m' & L & Ep & _).
  unfold scan_plain_scalar. rewrite bgt. cbv zeta. change (indent (at_ (flat l ++ q ++ after) m)) with (indent s). change (pos (at_ (flat l ++ q ++ after) m)) with m.
  match goal with |- context [loop ?b] => change b with (outer m (indent s + 1)) end. change (Mk_plain [] [] [] [] false m) with (with_gap [] g0 m). rewrite (bok _ _ _ _ _ (lr_loop _ _ _ _ _ L)).
  cbn [app] in Ep. rewrite Ep. exists (pl_end p'). destruct (pl_leading_blanks p').
  - exists (set_simple_key_allowed true (at_ after m')). split; [reflexivity|]. split; [reflexivity|]. apply Hid.
  - exists (at_ after m'). split; [reflexivity|]. split; [reflexivity|]. apply Hid.
Qed.
End scan.
