(** EmitPlain.v -- the text of the plain scalars the emitter writes, as a list of pieces. *)
From Coq Require Import Lia ZifyBool ZifyNat ZifyN Bool.
From Verif Require Import Base Utf Chars State Reader Scanner EState Emitter EmitText EmitScalar RoundScan Spec_Styles EmitQuoted EmitSingle Spec_RoundTrip RoundPlain.
Open Scope N_scope.

(** What is left of a plain scalar; [prev]: a character that is not a space stands before it. *)
Fixpoint pl_ok (flow prev : bool) (l : str) : Prop :=
  match l with
  | [] => prev = true
  | ch :: r => if ch =? 32 then pl_ok flow false r
               else pchar flow ch /\ (ch = 58 -> is_blankz (hd_error r) = false) /\ (ch = 35 -> prev = true) /\ pl_ok flow true r
  end.
Section from.
Variables (u flow : bool) (v : str).
Hypothesis H : Spec_Styles.plain_text u flow v.
Lemma pt_char a ch b : v = a ++ ch :: b -> ch <> 32 -> is_blankz (Some ch) = false.
Proof.
  intros E Hs. destruct H as (H1 & H2 & _). rewrite E in H1, H2. apply Forall_app in H1, H2. destruct H1 as [_ H1], H2 as [_ H2]. inversion H1 as [|? ? W _]; subst. inversion H2 as [|? ? L _]; subst.
  pose proof (writable_tab _ _ W) as T. destruct (is_blankz (Some ch)) eqn:Eb; [|reflexivity]. apply white_blankz in Eb. destruct Eb as [[Eb|Eb]|Eb]; contradiction.
Qed.
Lemma pt_behind a b : v = a ++ b -> a <> [] -> ~ white_behind b -> is_blankz (hd_error b) = false.
Proof.
  intros E _ Hb. destruct b as [|x b]; [destruct (Hb Logic.I)|]. cbn [hd_error]. cbn [white_behind] in Hb. destruct (is_blankz (Some x)) eqn:Eb; [apply white_blankz in Eb; contradiction|reflexivity].
Qed.
Lemma pt_inside : forall l a x, v = (a ++ [x]) ++ l -> pl_ok flow (negb (x =? 32)) l.
Proof.
  induction l as [|ch r IH]; intros a x E; cbn [pl_ok].
  - rewrite app_nil_r in E. destruct H as (_ & _ & _ & H4 & _). specialize (H4 _ _ E). unfold space in H4. lia.
  - assert (K : pl_ok flow (negb (ch =? 32)) r) by (apply (IH (a ++ [x])); rewrite E, <- !app_assoc; reflexivity). destruct (N.eqb_spec ch 32) as [-> |Hch]; [exact K|].
    pose proof H as (_ & _ & _ & _ & H5 & _). specialize (H5 (a ++ [x]) ch r ltac:(destruct a; discriminate) E). unfold bad_inside in H5. cbn [negb] in K.
    split; [|split; [|split; [|exact K]]].
    + split; [apply (pt_char (a ++ [x]) ch r E Hch)|]. intros Hf. assert (N1 : ~ In ch [44; 63; 91; 93; 123; 125; 58]) by (intros Hi; apply H5; left; auto).
      cbn [In] in N1. clear -N1. repeat split; intros ->; apply N1; auto 10.
    + intros E58. apply (pt_behind (a ++ [x] ++ [ch])); [rewrite E, <- !app_assoc; reflexivity|destruct a; discriminate|]. intros Hw. apply H5. right. left. auto.
    + intros E35. destruct (N.eqb_spec x 32) as [-> |]; [|reflexivity]. exfalso. apply H5. right. right. split; [exact E35|]. right. exists a, 32. split; [reflexivity|]. left. left. reflexivity.
Qed.
Lemma pt_first ch l : v = ch :: l -> ch <> 32 /\ pchar flow ch /\ (ch = 58 -> is_blankz (hd_error l) = false) /\ ch <> 35 /\ pl_ok flow true l.
Proof.
  intros E. pose proof H as (_ & _ & H3 & _ & _ & _). destruct (H3 ch l E) as [Hs Hb]. unfold space in Hs. unfold bad_first in Hb.
  assert (N1 : ~ In ch [35; 44; 91; 93; 123; 125; 38; 42; 33; 124; 62; 39; 34; 37; 64; 96]) by (intros Hi; apply Hb; left; exact Hi). cbn [In] in N1.
  assert (K : pl_ok flow (negb (ch =? 32)) l) by (apply (pt_inside l []); exact E). replace (ch =? 32) with false in K by lia.
  split; [exact Hs|]. split; [|split; [|split; [|exact K]]].
  - split; [apply (pt_char [] ch l E Hs)|]. intros Hf. assert (N2 : ch <> 58) by (intros ->; apply Hb; right; left; auto). clear -N1 N2. repeat split; intros ->; apply N1 + apply N2; auto 20.
  - intros E58. apply (pt_behind [ch]); [exact E|discriminate|]. intros Hw. apply Hb. right. left. auto.
  - intros ->. apply N1. auto.
Qed.
End from.

Section writers.
Variable c : est.
Variable ab flow : bool.
Notation ind := (em_indent c).
Notation lf := (break_chars (em_line_break c)).
Hypothesis Hind : (1 <= ind)%Z.
Lemma pw_spaces n r : pw flow false lf r -> pw flow false lf (repeat ASpace n ++ r).
Proof. induction n as [|n IH]; [auto|]. cbn [repeat app pw]. exact IH. Qed.
Lemma pw_fold n r prev : pw flow false lf r -> pw flow prev lf (fold_atoms lf n ++ r).
Proof. intros K. unfold fold_atoms. cbn [app pw]. split; [left; auto|]. apply pw_spaces, K. Qed.
Lemma pieces_plain : forall l sp x y w i, pl_ok flow (negb sp) l -> (sp = false -> i = false) ->
  exists ats x' y' w' i', runs (plain_loop ab sp false l) (mv x y w i c) (flat ats) (Ok tt) (mv x' y' w' i' c) /\
    pw flow (negb sp) lf ats /\ (is_blankz (hd_error l) = false -> hd_word ats) /\
    (forall g, gok g -> (sp = false -> g = g0) -> (g_ld g = true -> is_space (hd_error l) = false) -> den g ats = flush_gap g ++ l) /\
    (forall k z, k <= z -> k <= Z.to_N ind -> cols k z ats).
Proof.
  induction l as [|ch r IH]; intros sp x y w i Hp Hi; cbn [plain_loop pl_ok] in *.
  - exists [], x, y, w, i. split; [apply runs_ret|]. split; [exact Hp|]. split; [discriminate|]. split; [intros g _ _ _; cbn [den]; rewrite app_nil_r; reflexivity|]. intros k z Hz _. exact Hz.
  - destruct (N.eqb_spec ch 32) as [-> |Hsp].
    + destruct (ab && negb sp && (em_best_width c <? x)%Z && negb (is_space (hd_opt r))) eqn:Eq.
      * assert (sp = false /\ is_space (hd_opt r) = false) as [-> Er].
        { apply andb_true_iff in Eq. destruct Eq as [Eq E1]. apply negb_true_iff in E1. split; [|exact E1]. destruct sp; [|reflexivity]. cbn [negb] in Eq. rewrite andb_false_r in Eq. discriminate. }
        specialize (Hi eq_refl). subst i.
        destruct (IH true ind (y + 1)%Z true true Hp ltac:(discriminate)) as (ats & x' & y' & w' & i' & R & P & W & D & C).
        exists (fold_atoms lf (Z.to_nat ind) ++ ats), x', y', w', i'. split; [|split; [apply pw_fold, P|split; [discriminate|split]]].
        -- apply runs_get; [reflexivity|]. change (em_column (mv x y w false c)) with x. change (em_best_width (mv x y w false c)) with (em_best_width c). usew Eq. rewrite flat_app, fold_flat.
           refine (runs_seq _ _ _ _ _ _ _ _ (r_write_indent_break c x y w false _ eq_refl) R). clear -Hind. lia.
        -- intros g Gk Hg _. rewrite (Hg eq_refl), den_fold. rewrite D; [reflexivity|reflexivity|discriminate|]. intros _. destruct r; exact Er.
        -- intros k z Hz Hk. apply cols_fold, C; [|exact Hk]. clear -Hk. lia.
      * destruct (IH true (x + 1)%Z y w i Hp ltac:(discriminate)) as (ats & x' & y' & w' & i' & R & P & W & D & C).
        exists (ASpace :: ats), x', y', w', i'. split; [|split; [exact P|split; [discriminate|split]]].
        -- apply runs_get; [reflexivity|]. change (em_column (mv x y w i c)) with x. change (em_best_width (mv x y w i c)) with (em_best_width c). usew Eq. rewrite flat_cons.
           refine (runs_seq _ _ _ _ _ _ _ _ (r_write_char _ _ _ _ _ _) R).
        -- intros g Gk Hg Hs. cbn [den word]. assert (Eg : g_ld g = false) by (destruct (g_ld g); [discriminate (Hs eq_refl)|reflexivity]).
           rewrite D; [|apply gok_step, Gk|discriminate|].
           ++ unfold gstep, flush_gap. rewrite Eg. cbn [g_ld g_ws]. rewrite <- app_assoc. reflexivity.
           ++ unfold gstep. rewrite Eg. discriminate.
        -- intros k z Hz Hk. cbn [cols]. apply C; [clear -Hz; lia|exact Hk].
    + destruct Hp as ((Pb & Pf) & P58 & P35 & Pr).
      assert (Ebr : is_break_c ch = false) by (unfold is_blankz, is_breakz in Pb; cbn [is_break] in Pb; apply orb_false_iff in Pb; destruct Pb as [_ Pb]; apply orb_false_iff in Pb; tauto).
      rewrite Ebr. cbn [when].
      destruct (IH false (x + 1)%Z y w false Pr ltac:(reflexivity)) as (ats & x' & y' & w' & i' & R & P & W & D & C).
      exists (AChar ch :: ats), x', y', w', i'. split; [|split; [|split; [intros _; reflexivity|split]]].
      * rewrite flat_cons. change (atext (AChar ch) ++ flat ats) with ([] ++ [ch] ++ flat ats). refine (runs_seq _ _ _ _ _ _ _ _ (runs_ret tt _) _).
        refine (runs_seq _ _ _ _ _ _ _ _ (r_write_char _ _ _ _ _ _) _). refine (runs_seq _ _ _ [] _ _ _ _ (r_set_indention _ _ _ _ _ _) R).
      * cbn [pw]. split; [split; assumption|]. split; [intros E; apply W, P58, E|]. split; [exact P35|exact P].
      * intros g Gk Hg _. cbn [den word aval]. rewrite D; [reflexivity|split; reflexivity|reflexivity|discriminate].
      * intros k z Hz Hk. cbn [cols]. split; [exact Hz|]. apply C; [clear -Hz; lia|exact Hk].
Qed.
End writers.
