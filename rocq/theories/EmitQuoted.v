(** EmitQuoted.v -- the text of the quoted and plain scalars the emitter writes, as a list of pieces
    (RoundScan.v) that stand for the value. *)
From Coq Require Import Lia ZifyBool ZifyNat ZifyN Bool.
From Verif Require Import Base Utf Chars State Reader Scanner EState Emitter EmitText EmitScalar RoundScan Spec_Styles.
Open Scope N_scope.

(** ** Escape sequences *)
Lemma hex_upper_ok d : d < 16 -> is_hex_c (hex_upper d) = true /\ hex_val (hex_upper d) = d.
Proof.
  intros H. unfold hex_upper, is_hex_c, hex_val, in_range. destruct (N.ltb_spec d 10).
  - split; [lia|]. replace ((48 <=? 48 + d) && (48 + d <=? 57)) with true by lia. lia.
  - replace ((48 <=? 55 + d) && (55 + d <=? 57)) with false by lia. replace ((65 <=? 55 + d) && (55 + d <=? 70)) with true by lia. split; [reflexivity|lia].
Qed.
Lemma hex_digits_length n v : length (hex_digits n v) = n.
Proof. unfold hex_digits. rewrite map_length, rev_length, seq_length. reflexivity. Qed.
Lemma hex_digits_S n v : hex_digits (S n) v = hex_upper ((v / 16 ^ N.of_nat n) mod 16) :: hex_digits n v.
Proof. unfold hex_digits. rewrite seq_S, rev_app_distr. reflexivity. Qed.
Lemma hex_digits_value n : forall v a, hex_value n (hex_digits n v) a = Some (a * 16 ^ N.of_nat n + v mod 16 ^ N.of_nat n).
Proof.
  induction n as [|n IH]; intros v a.
  - cbn [hex_value]. f_equal. change (16 ^ N.of_nat 0) with 1. rewrite N.mod_1_r. lia.
  - rewrite hex_digits_S. cbn [hex_value]. destruct (hex_upper_ok ((v / 16 ^ N.of_nat n) mod 16)) as [-> ->]; [apply N.mod_lt; lia|]. rewrite IH. f_equal.
    rewrite Nat2N.inj_succ, N.pow_succ_r'. set (p := 16 ^ N.of_nat n). assert (p <> 0) by (apply N.pow_nonzero; lia).
    rewrite (N.mul_comm 16 p). rewrite (N.mod_mul_r v p 16) by lia. lia.
Qed.
Lemma esc_hex x n c : escape_code x = Some (inr n) -> is_break_c x = false -> is_scalar c = true -> c < 16 ^ N.of_nat n -> esc (x :: hex_digits n c) c.
Proof.
  intros Hx Hb Hc Hn. unfold esc. rewrite Hx. split; [exact Hb|]. split; [exact Hc|]. split; [apply hex_digits_length|].
  rewrite hex_digits_value, N.mod_small by exact Hn. reflexivity.
Qed.
Lemma escape_esc c : is_scalar c = true -> esc (escape_chars c) c.
Proof.
  intros H. unfold escape_chars.
  repeat match goal with |- context [c =? ?k] => destruct (N.eqb_spec c k) as [-> |_]; [repeat split|] end.
  destruct (N.leb_spec c 255); [apply esc_hex; [reflexivity|reflexivity|exact H|change (16 ^ N.of_nat 2) with 256; lia]|].
  destruct (N.leb_spec c 65535); [apply esc_hex; [reflexivity|reflexivity|exact H|change (16 ^ N.of_nat 4) with 65536; lia]|].
  apply esc_hex; [reflexivity|reflexivity|exact H|change (16 ^ N.of_nat 8) with 4294967296]. unfold is_scalar in H. lia.
Qed.

(** ** Folding a line *)
Definition fold_atoms (lf : str) (n : nat) : list atom := ABreak lf 10 :: repeat ASpace n.
Lemma fold_flat lf n : flat (fold_atoms lf n) = lf ++ sps n.
Proof. unfold fold_atoms. rewrite flat_cons. cbn [atext]. f_equal. induction n as [|n IH]; [reflexivity|]. cbn [repeat sps]. rewrite flat_cons, IH. reflexivity. Qed.
Lemma fold_awf single lf n : Forall (awf single lf) (fold_atoms lf n).
Proof. constructor; [left; split; reflexivity|]. induction n; cbn; constructor; [exact I|assumption]. Qed.
Lemma den_spaces g n l : g_ld g = true -> den g (repeat ASpace n ++ l) = den g l.
Proof. intros H. induction n as [|n IH]; [reflexivity|]. cbn [repeat app den word]. unfold gstep. rewrite H. exact IH. Qed.
Lemma cols_spaces k n l : forall x, cols k (x + N.of_nat n) l -> cols k x (repeat ASpace n ++ l).
Proof.
  induction n as [|n IH]; intros x H; cbn [repeat app cols]; [rewrite N.add_0_r in H; exact H|]. apply IH. replace (x + 1 + N.of_nat n) with (x + N.of_nat (S n)) by lia. exact H.
Qed.
Lemma cols_fold k lf n l x : cols k (N.of_nat n) l -> cols k x (fold_atoms lf n ++ l).
Proof. intros H. cbn [fold_atoms app cols]. apply cols_spaces. rewrite N.add_0_l. exact H. Qed.
Definition gfold : gap := Mk_gap [10] [] [] true.
Lemma den_fold lf n l : den g0 (fold_atoms lf n ++ l) = den gfold l.
Proof. cbn [fold_atoms app den word gstep g0 g_ld g_lb g_tb]. apply den_spaces. reflexivity. Qed.

Ltac lx := repeat match goal with b := _ : bool |- _ => clear dependent b end; repeat match goal with H : runs _ _ _ _ _ |- _ => clear H | H : Forall _ _ |- _ => clear H | H : needs_escape _ _ = _ |- _ => clear H end; repeat match goal with H : forall _, _ |- _ => clear H end; lia.
Ltac usew E := match type of E with _ = ?v => match goal with |- context [bind (if ?q then _ else _) _] => replace q with v by (symmetry; exact E) end end; cbv iota.
Section writers.
Variable c : est.
Variable ab : bool.
Notation ind := (em_indent c).
Notation lf := (break_chars (em_line_break c)).
Hypothesis Hind : (1 <= ind)%Z.

(** The pieces written for [l] from a state in which the gap before [l] is [g]. *)
Definition pieces (single : bool) (ok : gap -> Prop) (l : str) (ats : list atom) : Prop :=
  Forall (awf single lf) ats /\ (forall g, gok g -> ok g -> den g ats = flush_gap g ++ l) /\
  (forall k x, k <= x -> k <= Z.to_N ind -> cols k x ats).

Lemma double_text : forall n (l : str) sp fs x y w i, (length l <= n)%nat -> Forall (fun ch : char => is_scalar ch = true) l ->
  (i = true -> ind + (if sp : bool then 0 else 1) <= x)%Z ->
  exists ats x' y' w' i', runs (double_loop ab sp fs l) (mv x y w i c) (flat ats) (Ok tt) (mv x' y' w' i' c) /\
    pieces false (fun g => (sp = false -> g = g0) /\ (g_ld g = true -> is_space (hd_opt l) = false)) l ats.
Proof.
  induction n as [|n IH]; intros l sp fs x y w i Hn Hsc Hx.
  { destruct l; [|cbn in Hn; lx]. exists [], x, y, w, i. split; [apply runs_ret|]. split; [constructor|]. split; [intros g _ _; cbn [den]; rewrite app_nil_r; reflexivity|]. intros k z Hk _. exact Hk. }
  destruct l as [|ch r]; [exists [], x, y, w, i; split; [apply runs_ret|]; split; [constructor|]; split; [intros g _ _; cbn [den]; rewrite app_nil_r; reflexivity|]; intros k z Hk _; exact Hk|].
  cbn [length] in Hn. inversion Hsc as [|? ? Hch Hr]; subst. cbn [double_loop].
  destruct (needs_escape (em_unicode c) ch) eqn:Ene.
  - (* an escape sequence *)
    destruct (IH r false false (x + 1 + Z.of_nat (length (escape_chars ch)))%Z y w i) as (ats & x' & y' & w' & i' & R & F & D & C); [lx|exact Hr|intros Hi; specialize (Hx Hi); destruct sp; lx|].
    exists (AEsc (escape_chars ch) ch :: ats), x', y', w', i'. split.
    + apply runs_get; [reflexivity|]. change (em_unicode (mv x y w i c)) with (em_unicode c). rewrite Ene. rewrite flat_cons. cbn [atext].
      refine (runs_seq _ _ _ [92] _ _ _ _ (r_put _ _ _ _ _ _) _). refine (runs_seq _ _ _ _ _ _ _ _ (r_iter_put _ _ _ _ _ _) _). exact R.
    + split; [constructor; [split; [reflexivity|apply escape_esc, Hch]|exact F]|]. split.
      * intros g Gk [Hg1 Hg2]. cbn [den word aval]. rewrite D; [reflexivity|split; reflexivity|]. split; [reflexivity|discriminate].
      * intros k z Hk Hki. cbn [cols]. split; [exact Hk|]. apply C; lx.
  - destruct (N.eqb_spec ch 32) as [-> |Hsp].
    + set (b := ab && negb sp && (em_best_width c <? x)%Z && negb fs && negb (is_empty r)). destruct b eqn:Eb.
      * (* a fold *)
        assert (sp = false /\ r <> []) as [-> Hrn] by (subst b; destruct ab, sp, r; cbn in Eb; rewrite ?andb_false_r in Eb; try discriminate; split; auto; discriminate).
        assert (Hb : negb i || (ind <? x)%Z || (x =? ind)%Z && negb w = true) by (destruct i; [specialize (Hx eq_refl); cbn; replace (ind <? x)%Z with true by lx|]; reflexivity).
        destruct (is_space (hd_opt r)) eqn:Er.
        -- (* followed by an escaped space *)
           destruct r as [|ch2 r2]; [discriminate|]. cbn in Er. apply N.eqb_eq in Er. subst ch2. inversion Hr as [|? ? _ Hr2]; subst. cbn [length] in Hn.
           destruct (IH r2 true false (ind + 1 + 1)%Z (y + 1)%Z true true) as (ats & x' & y' & w' & i' & R & F & D & C); [lx|exact Hr2|intros _; lx|].
           exists (fold_atoms lf (Z.to_nat ind) ++ AEsc [32] 32 :: ats), x', y', w', i'. split.
           ++ apply runs_get; [reflexivity|]. change (em_unicode (mv x y w i c)) with (em_unicode c). change (em_column (mv x y w i c)) with x. change (em_best_width (mv x y w i c)) with (em_best_width c).
              rewrite Ene. change (32 =? 32) with true. cbv iota. usew Eb.
              cbn [hd_opt]. change (is_space (Some 32)) with true. cbn [when].
              eapply runs_conseq; [eapply (runs_seq _ _ _ ((lf ++ sps (Z.to_nat ind)) ++ [92]) (mv (ind + 1) (y + 1) true true c) ([32] ++ flat ats))| |reflexivity|reflexivity].
              { refine (runs_seq _ _ _ _ _ _ _ _ (r_write_indent_break _ _ _ _ _ _ Hb) _); [lx|]. apply r_put. }
              { cbn [double_loop]. apply runs_get; [reflexivity|]. change (em_unicode (mv (ind + 1) (y + 1) true true c)) with (em_unicode c). rewrite Ene. change (32 =? 32) with true. cbv iota.
                cbn [negb]. rewrite andb_false_r. cbn [andb]. refine (runs_seq _ _ _ _ _ _ _ _ (r_write_char _ _ _ _ _ _) _). exact R. }
              rewrite flat_app, fold_flat, flat_cons, <- !app_assoc. reflexivity.
           ++ split; [apply Forall_app; split; [apply fold_awf|]; constructor; [split; [reflexivity|repeat split]|exact F]|]. split.
              ** intros g _ [Hg _]. rewrite (Hg eq_refl), den_fold. cbn [den word aval]. rewrite D; [reflexivity|split; reflexivity|]. split; [discriminate|discriminate].
              ** intros k z Hk Hki. apply cols_fold. cbn [cols]. split; [lx|]. apply C; lx.
        -- destruct (IH r true false ind (y + 1)%Z true true) as (ats & x' & y' & w' & i' & R & F & D & C); [lx|exact Hr|intros _; lx|].
           exists (fold_atoms lf (Z.to_nat ind) ++ ats), x', y', w', i'. split.
           ++ apply runs_get; [reflexivity|]. change (em_unicode (mv x y w i c)) with (em_unicode c). change (em_column (mv x y w i c)) with x. change (em_best_width (mv x y w i c)) with (em_best_width c).
              rewrite Ene. change (32 =? 32) with true. cbv iota. usew Eb. cbn [when]. rewrite flat_app, fold_flat.
              refine (runs_seq _ _ _ _ (mv ind (y + 1) true true c) _ _ _ _ R).
              refine (runs_conseq _ _ _ _ _ _ _ _ (runs_seq _ _ _ _ _ [] _ _ (r_write_indent_break _ _ _ _ _ _ Hb) _) (app_nil_r _) eq_refl eq_refl); [lx|]. apply runs_ret.
           ++ split; [apply Forall_app; split; [apply fold_awf|exact F]|]. split.
              ** intros g _ [Hg _]. rewrite (Hg eq_refl), den_fold. rewrite D; [reflexivity|reflexivity|]. split; [discriminate|]. intros _. exact Er.
              ** intros k z Hk Hki. apply cols_fold. apply C; lx.
      * (* a space *)
        destruct (IH r true false (x + 1)%Z y w i) as (ats & x' & y' & w' & i' & R & F & D & C); [lx|exact Hr|intros Hi; specialize (Hx Hi); destruct sp; lx|].
        exists (ASpace :: ats), x', y', w', i'. split.
        -- apply runs_get; [reflexivity|]. change (em_unicode (mv x y w i c)) with (em_unicode c). change (em_column (mv x y w i c)) with x. change (em_best_width (mv x y w i c)) with (em_best_width c).
           rewrite Ene. change (32 =? 32) with true. cbv iota. usew Eb. rewrite flat_cons. refine (runs_seq _ _ _ _ _ _ _ _ (r_write_char _ _ _ _ _ _) R).
        -- split; [constructor; [exact I|exact F]|]. split.
           ++ intros g Gk [_ Hg]. cbn [den word]. destruct (g_ld g) eqn:Eg; [specialize (Hg eq_refl); discriminate|].
              rewrite D; [|apply gok_step, Gk|split; [discriminate|]; unfold gstep; rewrite Eg; discriminate]. unfold gstep, flush_gap. rewrite Eg. cbn [g_ld g_ws]. rewrite <- app_assoc. reflexivity.
           ++ intros k z Hk Hki. cbn [cols]. apply C; lx.
    + (* a character *)
      destruct (IH r false false (x + 1)%Z y w i) as (ats & x' & y' & w' & i' & R & F & D & C); [lx|exact Hr|intros Hi; specialize (Hx Hi); destruct sp; lx|].
      exists (AChar ch :: ats), x', y', w', i'. split.
      * apply runs_get; [reflexivity|]. change (em_unicode (mv x y w i c)) with (em_unicode c). rewrite Ene. replace (ch =? 32) with false by lx. rewrite flat_cons. refine (runs_seq _ _ _ _ _ _ _ _ (r_write_char _ _ _ _ _ _) R).
      * split; [constructor; [|exact F]|].
        { cbn [awf quote_char]. unfold needs_escape in Ene. repeat (apply orb_false_iff in Ene; destruct Ene as [Ene ?]). apply negb_false_iff in Ene.
          assert (Hal : allowed_char ch = true) by (clear -Ene; unfold is_printable, allowed_char, in_range in *; destruct (_ || _ || _); [discriminate|lia]).
          split; [|split; [lx|right; split; [lx|exact Hal]]]. unfold is_blankz, is_breakz, is_blank, is_space, is_tab. cbn [chk is_z is_break]. rewrite H1. replace (ch =? 32) with false by lx.
          unfold is_printable, in_range in Ene. destruct (N.eqb_spec ch 9) as [-> |]; [discriminate|reflexivity]. }
        split; [|intros k z Hk Hki; cbn [cols]; split; [exact Hk|]; apply C; lx].
        intros g Gk _. cbn [den word aval]. rewrite D; [reflexivity|split; reflexivity|]. split; [reflexivity|discriminate].
Qed.
End writers.
