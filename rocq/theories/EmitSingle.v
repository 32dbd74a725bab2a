(** EmitSingle.v -- the text of the single-quoted scalars the emitter writes, as a list of pieces. *)
From Coq Require Import Lia ZifyBool ZifyNat ZifyN Bool.
From Verif Require Import Base Utf Chars State Reader Scanner EState Emitter EmitText EmitScalar RoundScan Spec_Styles EmitQuoted.
Open Scope N_scope.

Section writers.
Variable c : est.
Variable ab : bool.
Notation ind := (em_indent c).
Notation lf := (break_chars (em_line_break c)).
Hypothesis Hind : (1 <= ind)%Z.

(** ** Single quotes *)
Definition tl_ (b : bool) : list atom := if b then repeat ASpace (Z.to_nat ind) else [].
Definition gbrk (g : gap) : Prop := g_ld g = true /\ (starts_with 10 (g_lb g) = true -> g_tb g <> []) /\ g_lb g <> [].
Lemma flush_brk g ch : gbrk g -> flush_gap (gstep g (ABreak [ch] ch)) = flush_gap g ++ [ch].
Proof.
  intros (H1 & H2 & _). unfold gstep, flush_gap. rewrite H1. cbn [g_ld g_lb g_tb]. unfold fold_breaks. destruct (starts_with 10 (g_lb g)); [|cbn [app]; rewrite <- app_assoc; reflexivity].
  specialize (H2 eq_refl). destruct (g_tb g); [congruence|]. reflexivity.
Qed.
Lemma gbrk_step g t ch : gbrk g -> gbrk (gstep g (ABreak t ch)).
Proof. intros (H1 & H2 & H3). unfold gstep. rewrite H1. split; [reflexivity|]. cbn [g_lb g_tb]. split; [|exact H3]. intros _. destruct (g_tb g); discriminate. Qed.
Definition sgl_ok (sp br : bool) (l : str) (g : gap) : Prop :=
  if br then gbrk g else if sp then g_ld g = true -> is_space (hd_opt l) = false else g = g0.
Definition bounds (sp br : bool) (l : str) : Prop :=
  (br = true -> is_space (hd_opt l) = false) /\ (sp = true -> br = false -> is_break (hd_opt l) = false).
Lemma nbs_tl a l : no_break_space (a :: l) -> no_break_space l.
Proof. intros H p y b x E. apply (H (a :: p) y b x). rewrite E. reflexivity. Qed.
Lemma nsb_tl a l : no_space_break (a :: l) -> no_space_break l.
Proof. intros H p y b x E. apply (H (a :: p) y b x). rewrite E. reflexivity. Qed.
Lemma break_c_line ch : is_break_c ch = true <-> line_break ch.
Proof. unfold is_break_c, line_break. rewrite !orb_true_iff, !N.eqb_eq. tauto. Qed.
Lemma nsb_hd l : no_space_break (32 :: l) -> is_break (hd_opt l) = false.
Proof. intros H. destruct l as [|y l]; [reflexivity|]. cbn. destruct (is_break_c y) eqn:E; [|reflexivity]. apply break_c_line in E. destruct (H [] 32 l y eq_refl eq_refl E). Qed.
Lemma nbs_hd ch l : is_break_c ch = true -> no_break_space (ch :: l) -> is_space (hd_opt l) = false.
Proof.
  intros Hc H. destruct l as [|y l]; [reflexivity|]. cbn. destruct (N.eqb_spec y 32) as [-> |]; [|reflexivity]. apply break_c_line in Hc. destruct (H [] ch l 32 eq_refl Hc eq_refl).
Qed.
Lemma writable_break u ch : writable u ch -> is_break_c ch = true -> ch = 10 \/ ch = 8232 \/ ch = 8233.
Proof. intros [Hp _] H. apply break_c_line in H. unfold line_break in H. unfold printable in Hp. destruct H as [H|[H|[H|[H|H]]]]; subst; auto; exfalso; lia. Qed.
Lemma writable_tab u ch : writable u ch -> ch <> 9.
Proof. intros [Hp _] ->. unfold printable in Hp. lia. Qed.
Lemma repeat_flat n : flat (repeat ASpace n) = sps n.
Proof. induction n as [|n IH]; [reflexivity|]. cbn [repeat sps]. rewrite flat_cons, IH. reflexivity. Qed.
Lemma spaces_awf single n : Forall (awf single lf) (repeat ASpace n).
Proof. induction n; cbn; constructor; [exact I|assumption]. Qed.
Lemma cols_arb k n l x : k <= N.of_nat n -> (forall y, k <= y -> cols k y l) -> cols k x (repeat ASpace n ++ l).
Proof. intros H K. apply cols_spaces, K. lia. Qed.
Lemma cols_break k a b l x : cols k x (ABreak a b :: l) = cols k 0 l. Proof. reflexivity. Qed.

Lemma single_text_pieces u : forall l sp br fs x y w i, Forall (writable u) l -> no_break_space l -> no_space_break l -> bounds sp br l ->
  (br = true -> x = 0%Z /\ i = true) -> (br = false -> sp = false -> i = false) ->
  exists ats b x' y' w' i', runs (single_loop ab sp br fs l) (mv x y w i c) (flat ats) (Ok b) (mv x' y' w' i' c) /\
    (b = true -> x' = 0%Z /\ i' = true) /\ Forall (awf true lf) (ats ++ tl_ b) /\
    (forall g, gok g -> sgl_ok sp br l g -> den g (ats ++ tl_ b) = flush_gap g ++ l) /\
    (forall k z, (br = false -> k <= z) -> k <= Z.to_N ind -> cols k z (ats ++ tl_ b)).
Proof.
  induction l as [|ch r IH]; intros sp br fs x y w i Hw Hbs Hsb [Hb1 Hb2] Hbr Hi; cbn [single_loop].

  - exists [], br, x, y, w, i. split; [apply runs_ret|]. split; [exact Hbr|]. cbn [app]. split; [destruct br; [apply spaces_awf|constructor]|]. split.
    + intros g Gk Hg. rewrite app_nil_r. destruct br; [|reflexivity]. cbn [tl_]. rewrite <- (app_nil_r (repeat _ _)), den_spaces by apply Hg. reflexivity.
    + intros k z Hz Hk. destruct br; cbn [tl_]; [|apply Hz; reflexivity]. rewrite <- (app_nil_r (repeat _ _)). apply cols_arb; [lia|]. intros y0 H0. exact H0.
  - inversion Hw as [|? ? Hch Hr]; subst. pose proof (nbs_tl _ _ Hbs) as Hbs'. pose proof (nsb_tl _ _ Hsb) as Hsb'. destruct (N.eqb_spec ch 32) as [-> |Hsp].
    + (* space *)
      destruct br; [specialize (Hb1 eq_refl); discriminate|]. pose proof (nsb_hd _ Hsb) as Hhd.
      set (q := ab && negb sp && (em_best_width c <? x)%Z && negb fs && negb (is_empty r) && negb (is_space (hd_opt r))). destruct q eqn:Eq.
      * assert (sp = false /\ is_space (hd_opt r) = false) as [-> Er].
        { subst q. apply andb_true_iff in Eq. destruct Eq as [Eq E1]. apply negb_true_iff in E1. split; [|exact E1]. destruct sp; [|reflexivity]. cbn [negb] in Eq. rewrite andb_false_r in Eq. discriminate. }
        specialize (Hi eq_refl eq_refl). subst i.
        destruct (IH true false false ind (y + 1)%Z true true Hr Hbs' Hsb') as (ats & b & x' & y' & w' & i' & R & B & F & D & C); [split; [discriminate|auto]|discriminate|discriminate|].
        exists (fold_atoms lf (Z.to_nat ind) ++ ats), b, x', y', w', i'. split; [|split; [exact B|]].
        -- apply runs_get; [reflexivity|]. change (em_column (mv x y w false c)) with x. change (em_best_width (mv x y w false c)) with (em_best_width c). usew Eq. rewrite flat_app, fold_flat.
           refine (runs_seq _ _ _ _ _ _ _ _ (r_write_indent_break c x y w false _ eq_refl) R). clear -Hind. lia.
        -- rewrite <- app_assoc. split; [apply Forall_app; split; [apply fold_awf|exact F]|]. split.
           ++ intros g Gk Hg. cbn [sgl_ok] in Hg. subst g. rewrite den_fold. rewrite D; [reflexivity|reflexivity|]. cbn [sgl_ok]. auto.
           ++ intros k z Hz Hk. apply cols_fold, C; [intros _|exact Hk]. clear -Hk. lia.
      * destruct (IH true false false (x + 1)%Z y w i Hr Hbs' Hsb') as (ats & b & x' & y' & w' & i' & R & B & F & D & C); [split; [discriminate|auto]|discriminate|discriminate|].
        exists (ASpace :: ats), b, x', y', w', i'. split; [|split; [exact B|]].
        -- apply runs_get; [reflexivity|]. change (em_column (mv x y w i c)) with x. change (em_best_width (mv x y w i c)) with (em_best_width c). usew Eq. rewrite flat_cons.
           refine (runs_seq _ _ _ _ _ _ _ _ (r_write_char _ _ _ _ _ _) R).
        -- cbn [app]. split; [constructor; [exact I|exact F]|]. split.
           ++ intros g Gk Hg. cbn [den word]. assert (Eg : g_ld g = false).
              { cbn [sgl_ok] in Hg. destruct sp; [destruct (g_ld g); [specialize (Hg eq_refl); discriminate|reflexivity]|subst g; reflexivity]. }
              rewrite D; [|apply gok_step, Gk|]. { unfold gstep, flush_gap. rewrite Eg. cbn [g_ld g_ws]. rewrite <- app_assoc. reflexivity. }
              cbn [sgl_ok]. unfold gstep. rewrite Eg. discriminate.
           ++ intros k z Hz Hk. cbn [cols]. apply C; [|exact Hk]. intros _. specialize (Hz eq_refl). clear -Hz. lia.
    + destruct (is_break_c ch) eqn:Ebr.
      * (* break *)
        assert (Hsp2 : br = true \/ sp = false) by (destruct br; [auto|]; destruct sp; [|auto]; specialize (Hb2 eq_refl eq_refl); cbn in Hb2; congruence).
        destruct (IH sp true false 0%Z (y + (if negb br && (ch =? 10)%N then 1 else 0) + 1)%Z w true Hr Hbs' Hsb') as (ats & b & x' & y' & w' & i' & R & B & F & D & C); [split; [intros _; exact (nbs_hd _ _ Ebr Hbs)|discriminate]|auto|discriminate|].
        pose proof (writable_break _ _ Hch Ebr) as Hk.
        set (bt := if ch =? 10 then lf else [ch]).
        assert (Hbt : awf true lf (ABreak bt ch)) by (subst bt; cbn [awf]; unfold brk; destruct (N.eqb_spec ch 10); [auto|]; right; split; [|reflexivity]; destruct Hk as [Hk|Hk]; [congruence|exact Hk]).
        exists ((if negb br && (ch =? 10)%N then [ABreak lf 10] else []) ++ ABreak bt ch :: ats), b, x', y', w', i'. split; [|split; [exact B|]].
        -- rewrite flat_app, flat_cons. refine (runs_seq _ _ _ _ (mv (if negb br && (ch =? 10)%N then 0%Z else x) (y + (if negb br && (ch =? 10)%N then 1 else 0)) w i c) _ _ _ _ _).
           { destruct (negb br && (ch =? 10)%N); cbn [when]; [cbn [flat flat_map atext]; rewrite app_nil_r; apply r_put_break|]. rewrite Z.add_0_r. apply runs_ret. }
           refine (runs_seq _ _ _ _ _ _ _ _ (r_write_break _ _ _ _ _ _) _). refine (runs_seq _ _ _ [] _ _ _ _ (r_set_indention _ _ _ _ _ _) R).
        -- rewrite <- app_assoc. cbn [app]. split.
           { apply Forall_app. split; [destruct (negb br && (ch =? 10)%N); [constructor; [left; auto|constructor]|constructor]|]. constructor; [exact Hbt|exact F]. }
           split.
           ++ intros g Gk Hg. destruct br; cbn [negb andb app].
              ** cbn [den word]. rewrite D; [|apply gok_step, Gk|apply gbrk_step, Hg]. change (gstep g (ABreak bt ch)) with (gstep g (ABreak [ch] ch)). rewrite (flush_brk _ _ Hg), <- app_assoc. reflexivity.
              ** destruct Hsp2 as [Hsp2|Hsp2]; [discriminate|]. subst sp. cbn [sgl_ok] in Hg. subst g. destruct (N.eqb_spec ch 10) as [-> |H10]; cbn [app den word].
                 --- rewrite D; [reflexivity|reflexivity|]. split; [reflexivity|]. split; [discriminate|discriminate].
                 --- rewrite D; [|reflexivity|]; cbn [gstep g0 g_ld g_lb g_tb g_ws app].
                     +++ unfold flush_gap, fold_breaks. cbn [g_ld g_lb g_tb starts_with g0 g_ws app]. replace (ch =? 10) with false by (clear -H10; lia). reflexivity.
                     +++ split; [reflexivity|]. split; [|discriminate]. cbn [g_lb starts_with]. intros E. clear -E H10. lia.
           ++ intros k z _ Hki. assert (K : cols k 0 (ats ++ tl_ b)) by (apply C; [discriminate|exact Hki]). destruct (negb br && (ch =? 10)%N); cbn [app]; exact K.
      * (* a character *)
        assert (Hbl : is_blankz (Some ch) = false).
        { unfold is_blankz, is_breakz, is_blank, is_space, is_tab. cbn [chk is_z is_break]. rewrite Ebr. pose proof (writable_tab _ _ Hch) as Ht. clear -Hsp Ht. lia. }
        set (a := if ch =? 39 then AQuote else AChar ch).
        assert (Ha : word a = true /\ aval a = ch /\ awf true lf a) by (subst a; destruct (N.eqb_spec ch 39) as [-> |]; repeat split; auto).
        destruct Ha as (Ha1 & Ha2 & Ha3).
        set (x1 := if br then ind else x). set (w1 := if br then true else w). set (i1 := if br then true else i).
        destruct (IH false false false (x1 + (if (ch =? 39)%N then 1 else 0) + 1)%Z y w1 false Hr Hbs' Hsb') as (ats & b & x' & y' & w' & i' & R & B & F & D & C); [split; discriminate|discriminate|reflexivity|].
        exists ((if br then repeat ASpace (Z.to_nat ind) else []) ++ a :: ats), b, x', y', w', i'. split; [|split; [exact B|]].
        -- rewrite flat_app, flat_cons. refine (runs_seq _ _ _ _ (mv x1 y w1 i1 c) _ _ _ _ _).
           { destruct br; cbn [when]; [|apply runs_ret]. destruct (Hbr eq_refl) as [-> ->]. rewrite repeat_flat. subst x1 w1 i1. rewrite <- (Z.sub_0_r ind) at 1. apply r_write_indent_stay; clear -Hind; lia. }
           replace (atext a ++ flat ats) with ((if ch =? 39 then [39] else []) ++ [ch] ++ flat ats) by (subst a; destruct (N.eqb_spec ch 39) as [-> |]; reflexivity).
           refine (runs_seq _ _ _ _ (mv (x1 + (if (ch =? 39)%N then 1 else 0)) y w1 i1 c) _ _ _ _ _).
           { destruct (ch =? 39); cbn [when]; [apply r_put|]. rewrite Z.add_0_r. apply runs_ret. }
           refine (runs_seq _ _ _ _ _ _ _ _ (r_write_char _ _ _ _ _ _) _). refine (runs_seq _ _ _ [] _ _ _ _ (r_set_indention _ _ _ _ _ _) R).
        -- rewrite <- app_assoc. cbn [app]. split; [apply Forall_app; split; [destruct br; [apply spaces_awf|constructor]|constructor; [exact Ha3|exact F]]|]. split.
           ++ intros g Gk Hg. replace (den g ((if br then repeat ASpace (Z.to_nat ind) else []) ++ a :: ats ++ tl_ b)) with (den g (a :: ats ++ tl_ b)) by (destruct br; [symmetry; apply den_spaces, Hg|reflexivity]).
              cbn [den]. rewrite Ha1, Ha2, D; [reflexivity|split; reflexivity|reflexivity].
           ++ intros k z Hz Hk. assert (K : forall z, k <= z -> cols k z (a :: ats ++ tl_ b)).
              { intros z0 H0. assert (cols k (z0 + 1) (ats ++ tl_ b)) by (apply C; [intros _; clear -H0; lia|exact Hk]). subst a. destruct (ch =? 39); split; assumption. }
              destruct br; [apply cols_arb; [clear -Hk; lia|exact K]|]. apply K, Hz. reflexivity.
Qed.
End writers.
