(** LexScan.v -- the text consumed by the scan_ functions: gaps, names, tags, directives. *)
From Coq Require Import Lia ZifyBool ZifyNat ZifyN Bool.
From Verif Require Import Base Utf Chars State Reader Scanner Wp ReaderFacts ReadFacts Spec_Lexical LexBase.
Open Scope N_scope.

(** Classes of characters. *)
Lemma blank_is c : blank c = is_blank (Some c). Proof. reflexivity. Qed.
Lemma blank_nobreak c : blank c = true -> breaks_line c = false.
Proof. unfold blank, breaks_line. lia. Qed.
Lemma word_is c : word_char c = is_alpha_c c. Proof. reflexivity. Qed.
Lemma word_nobreak c : word_char c = true -> breaks_line c = false.
Proof. unfold word_char, breaks_line. lia. Qed.
Lemma c_blank s : is_blank (bget 0 s) = true -> exists c, bget 0 s = Some c /\ blank c = true /\ breaks_line c = false.
Proof. intros E. destruct (bget 0 s) as [c|]; [|discriminate]. exists c. split; [reflexivity|]. split; [exact E|apply blank_nobreak, E]. Qed.
Lemma c_nobreak s : negb (is_breakz (bget 0 s)) = true -> exists c, bget 0 s = Some c /\ breaks_line c = false /\ breaks_line c = false.
Proof. intros E. destruct (bget 0 s) as [c|]; [|discriminate]. exists c. unfold is_breakz, is_z, is_break in E. rewrite breaks_is. destruct (is_break_c c); [discriminate|auto]. Qed.
Lemma c_word s : is_alpha (bget 0 s) = true -> exists c, bget 0 s = Some c /\ word_char c = true /\ breaks_line c = false.
Proof. intros E. destruct (bget 0 s) as [c|]; [|discriminate]. exists c. split; [reflexivity|]. split; [exact E|apply word_nobreak, E]. Qed.
Lemma filler_is c : is_blankz (Some c) = filler c.
Proof. unfold is_blankz, is_breakz, is_z, is_break, filler. rewrite breaks_is. reflexivity. Qed.
Lemma chk_some c o : chk c o = true -> o = Some c.
Proof. destruct o as [d|]; [|discriminate]. cbn. intros E. apply N.eqb_eq in E. subst. reflexivity. Qed.

Ltac ok := first [assumption|reflexivity|lia].
Section text.
Variable rest : list byte.
Variable T : str.
Notation H := (H rest T).

Lemma gap_filler w : forall p g r, Forall (fun c => filler c = true) w -> gap (p ++ w) g r -> gap p (w ++ g) r.
Proof.
  induction w as [|c w IH]; intros p g r F G; [rewrite app_nil_r in G; exact G|]. cbn [app]. apply G_blank.
  - apply Forall_inv in F. unfold filler in F. apply orb_prop in F. tauto.
  - apply IH; [exact (Forall_inv_tail F)|]. rewrite <- app_assoc. exact G.
Qed.
Lemma blank_filler w : Forall (fun c => blank c = true) w -> Forall (fun c => filler c = true) w.
Proof. apply Forall_impl. intros c E. unfold filler. rewrite E. reflexivity. Qed.
Lemma break_filler b : In b break_texts -> Forall (fun c => filler c = true) b /\ b <> [].
Proof. cbn. intros [<-|[<-|[<-|[<-|[<-|[<-|[]]]]]]]; (split; [repeat constructor|discriminate]). Qed.

(** [skips p r g0 r1]: the text [g0] after [p] can be skipped, [r1] follows. *)
Definition skips (p r g0 r1 : str) : Prop := r = g0 ++ r1 /\ forall g r', r1 = g ++ r' -> gap (p ++ g0) g r' -> gap p (g0 ++ g) r'.
Lemma skips_refl p r : skips p r [] r.
Proof. split; [reflexivity|]. intros g r' _ G. rewrite app_nil_r in G. exact G. Qed.
Lemma skips_gap p r g0 r1 : skips p r g0 r1 -> gap p g0 r1.
Proof. intros [_ X]. specialize (X [] r1 eq_refl (G_nil _ _)). rewrite app_nil_r in X. exact X. Qed.
Lemma skips_filler p r g0 w r2 : skips p r g0 (w ++ r2) -> Forall (fun c => filler c = true) w -> skips p r (g0 ++ w) r2.
Proof.
  intros [E X] F. split; [rewrite E, <- app_assoc; reflexivity|]. intros g r' Er G. rewrite <- app_assoc. apply X; [rewrite Er, app_assoc; reflexivity|].
  apply gap_filler; [exact F|]. rewrite <- app_assoc. exact G.
Qed.
Lemma skips_comment p r g0 x r2 : skips p r g0 (35 :: x ++ r2) -> Forall (fun c => breaks_line c = false) x -> starts_line_break r2 -> skips p r (g0 ++ 35 :: x) r2.
Proof.
  intros [E X] F S. split; [rewrite E, <- app_assoc; reflexivity|]. intros g r' Er G. rewrite <- app_assoc. cbn [app]. apply X.
  - rewrite Er. cbn. rewrite <- app_assoc. reflexivity.
  - apply G_comment; [exact F|rewrite <- Er; exact S|]. rewrite <- app_assoc. exact G.
Qed.
Lemma at_break k p r s : H k p r s -> (1 <= k)%nat -> is_breakz (bget 0 s) = true -> starts_line_break r.
Proof. intros Hh Hk E. rewrite (H_get _ _ _ _ _ _ 0 Hh ltac:(lia)) in E. destruct r as [|c r]; [exact I|]. cbn in E |- *. rewrite breaks_is. exact E. Qed.
Lemma is_break_head k p r s : H k p r s -> is_break (bget 0 s) = true -> breaks_line (hd 0 r) = true.
Proof. intros Hh E. destruct (bget 0 s) as [c|] eqn:Eb; [|discriminate]. destruct (H_head _ _ _ _ _ _ _ Hh Eb) as [r' ->]. cbn. rewrite breaks_is. exact E. Qed.

(** A comment, if there is one. *)
Lemma L_comment k p0 r0 g p r s : H k p r s -> (1 <= k)%nat -> skips p0 r0 g r -> p = p0 ++ g ->
  pc (when (chk cHASH (bget 0 s)) (skip_while (fun s => negb (is_breakz (bget 0 s)))))
     (fun _ s' => exists x r', r = x ++ r' /\ (x = [] \/ exists y, x = 35 :: y /\ Forall (fun c => breaks_line c = false) y) /\ skips p0 r0 (g ++ x) r' /\ H 1 (p ++ x) r' s' /\ same s s') s.
Proof.
  intros Hh Hk Sk Ep. destruct (chk cHASH (bget 0 s)) eqn:Ec; cbn [when].
  - apply chk_some in Ec. destruct (H_head _ _ _ _ _ _ _ Hh Ec) as [r1 ->].
    eapply pc_conseq; [apply (L_skip_while rest T _ (fun c => breaks_line c = false) _ _ _ _ Hh Hk); intros s1 E1; exact (c_nobreak s1 E1)|].
    cbn beta. intros _ s1 (w & r' & Ew & F & H1 & S1 & C1). apply negb_false_iff in C1. pose proof (at_break _ _ _ _ H1 (le_n _) C1) as B1.
    destruct w as [|c w].
    + cbn in Ew. subst r'. cbn in B1. discriminate B1.
    + injection Ew as <- ->. exists (35 :: w), r'. split; [reflexivity|]. split; [right; exists w; split; [reflexivity|exact (Forall_inv_tail F)]|].
      split; [apply skips_comment; [exact Sk|exact (Forall_inv_tail F)|exact B1]|auto].
  - apply pc_ret. exists [], r. rewrite !app_nil_r. split; [reflexivity|]. split; [auto|]. split; [exact Sk|]. split; [eapply H_less; eauto|reflexivity].
Qed.

Lemma L_to_next k p r s : H k p r s -> pc scan_to_next_token (fun _ s' => exists g r', skips p r g r' /\ H 1 (p ++ g) r' s' /\ same s s') s.
Proof.
  intros Hh. unfold scan_to_next_token.
  apply (pc_loop (fun (_ : unit) s' => exists g r', skips p r g r' /\ H 0 (p ++ g) r' s' /\ same s s')).
  2:{ exists [], r. rewrite app_nil_r. split; [apply skips_refl|]. split; [eapply H_less; [|exact Hh]; lia|reflexivity]. }
  intros _ s1 (g & r1 & Sk & H1 & S1).
  eapply pc_seq; [apply (L_cache _ _ 1 _ _ _ _ H1)|]. cbn beta. intros _ s2 (H2 & S2). apply pc_bind, pc_get.
  assert (S02 : same s s2) by (eapply same_trans; eauto). clear S1 S2 H1 s1.
  apply pc_bind. eapply pc_conseq with (Q := fun _ s' => exists g r', skips p r g r' /\ H 0 (p ++ g) r' s' /\ same s s').
  { destruct ((m_col (pos s2) =? 0) && IS_BOM (bget 0 s2)) eqn:Eb; cbn [when].
    - apply andb_prop in Eb. destruct Eb as [Ecol Eb]. apply chk_some in Eb. destruct (H_head _ _ _ _ _ _ _ H2 Eb) as [r2 ->].
      eapply pc_conseq; [apply (L_skip _ _ _ _ _ _ H2 eq_refl)|]. cbn beta. intros _ s3 (c & r' & [= <- <-] & _ & H3 & S3).
      exists (g ++ [65279]), r2. rewrite app_assoc. split; [|split; [eapply H_less; [|exact H3]; lia|eapply same_trans; eauto]]. destruct Sk as [E X]. split; [rewrite E, <- app_assoc; reflexivity|].
      intros g' r' Er G. rewrite <- app_assoc. cbn [app]. apply X; [rewrite Er; reflexivity|]. apply G_blank; [|rewrite <- app_assoc; exact G].
      right. right. split; [reflexivity|]. rewrite <- (h_pos _ _ _ _ _ _ H2). apply N.eqb_eq, Ecol.
    - apply pc_ret. exists g, r1. split; [exact Sk|]. split; [eapply H_less; [|exact H2]; lia|exact S02]. }
  cbn beta. clear. intros _ s3 (g & r1 & Sk & H3 & S03).
  eapply pc_seq; [apply (L_cache _ _ 1 _ _ _ _ H3)|]. cbn beta. intros _ s4 (H4 & S4). assert (S04 : same s s4) by (eapply same_trans; eauto). clear S03 S4 H3 s3.
  eapply pc_seq; [eapply (L_skip_while _ _ _ (fun c => blank c = true) _ _ _ _ H4); [lia|]|].
  { intros s5 E5. apply orb_prop in E5. destruct E5 as [E5|E5]; [apply chk_some in E5; exists 32; split; [exact E5|split; reflexivity]|].
    apply andb_prop in E5. destruct E5 as [_ E5]. apply chk_some in E5. exists 9. split; [exact E5|split; reflexivity]. }
  cbn beta. intros _ s5 (w & r5 & -> & F5 & H5 & S5 & _). apply pc_bind, pc_get.
  pose proof (skips_filler _ _ _ _ _ Sk (blank_filler _ F5)) as Sk5. rewrite <- app_assoc in H5.
  eapply pc_seq; [eapply (L_comment _ _ _ _ _ _ _ H5); [lia|exact Sk5|reflexivity]|]. cbn beta. intros _ s6 (x & r6 & -> & _ & Sk6 & H6 & S6). apply pc_bind, pc_get.
  assert (S06 : same s s6) by (eapply same_trans; [exact S04|eapply same_trans; eauto]). rewrite <- app_assoc in H6. clear - Sk6 H6 S06.
  set (g1 := (g ++ w) ++ x) in *. clearbody g1.
  destruct (is_break (bget 0 s6)) eqn:E6; cbn [negb].
  2:{ apply pc_ret. exists g1, r6. auto. }
  eapply pc_seq; [apply (L_cache _ _ 2 _ _ _ _ H6)|]. cbn beta. intros _ s7 (H7 & S7).
  eapply pc_seq; [apply (L_skip_break _ _ _ _ _ _ H7); [lia|apply (is_break_head _ _ _ _ H6 E6)]|]. cbn beta. intros _ s8 (b & r8 & -> & B1 & B2 & H8 & S8).
  apply pc_bind, pc_modify, pc_ret. exists (g1 ++ b), r8. split; [apply skips_filler; [exact Sk6|apply (break_filler _ B1)]|]. rewrite app_assoc.
  assert (S08 : same s s8) by (eapply same_trans; [exact S06|eapply same_trans; eauto]).
  destruct (flow_level s8 =? 0); [|split; [eapply H_less; [|exact H8]; lia|exact S08]].
  split; [|exact S08]. destruct H8 as [A1 A2 A3 A4 A5]. constructor; [exact A1|destruct A2; constructor; assumption|exact A3|exact A4|left; lia].
Qed.
(** Nothing to skip at the end of the text. *)
Lemma empty_get s i : text rest [] s -> bget i s = None.
Proof. intros Tx. destruct (text_buffer _ _ _ Tx) as [x E]. symmetry in E. apply app_eq_nil in E. destruct E as [E _]. unfold bget. rewrite E. destruct i; reflexivity. Qed.
Lemma cache_empty n s : text rest [] s -> pc (cache n) (fun _ s' => text rest [] s' /\ pos s' = pos s /\ same s s') s.
Proof. intros Tx. eapply pc_conseq; [eapply pc_wp, (cache_text n _ _ _ Tx)|]. cbn beta. intros _ s' (T' & R & _). split; [exact T'|]. split; [apply (rd_pos _ _ R)|apply (rd_frame _ _ R)]. Qed.
Lemma L_to_next_end s : text rest [] s -> pc scan_to_next_token (fun _ s' => text rest [] s' /\ pos s' = pos s /\ same s s') s.
Proof.
  intros Tx. unfold scan_to_next_token. apply (pc_loop (fun (_ : unit) s' => text rest [] s' /\ pos s' = pos s /\ same s s')); [|split; [exact Tx|split; reflexivity]].
  intros _ s1 (T1 & P1 & S1). eapply pc_seq; [apply (cache_empty 1 _ T1)|]. cbn beta. intros _ s2 (T2 & P2 & S2). apply pc_bind, pc_get. unfold IS_BOM. rewrite (empty_get _ _ T2). cbn [chk]. rewrite andb_false_r. cbn [when].
  apply pc_bind, pc_ret. eapply pc_seq; [apply (cache_empty 1 _ T2)|]. cbn beta. intros _ s3 (T3 & P3 & S3).
  apply pc_bind. unfold skip_while. apply (pc_loop (fun (_ : unit) s' => s' = s3)); [|reflexivity]. intros _ s4 ->. apply pc_bind, pc_get. rewrite !(empty_get _ _ T3). cbn [chk orb]. rewrite andb_false_r. apply pc_ret.
  apply pc_bind, pc_get. rewrite !(empty_get _ _ T3). cbn [chk when]. apply pc_bind, pc_ret. apply pc_bind, pc_get. rewrite !(empty_get _ _ T3). cbn [is_break negb]. apply pc_ret.
  split; [exact T3|]. split; [congruence|]. eapply same_trans; [exact S1|]. eapply same_trans; eauto.
Qed.
End text.
