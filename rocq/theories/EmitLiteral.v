(** EmitLiteral.v -- the text of the literal block scalars the emitter writes. *)
From Coq Require Import Lia ZifyBool ZifyNat ZifyN Bool.
From Verif Require Import Base Utf Chars State Reader Scanner EState Emitter EmitText EmitScalar RoundScan Spec_Styles EmitQuoted EmitSingle Spec_RoundTrip RoundPlain RoundLiteral.
Open Scope N_scope.

Section writers.
Variable c : est.
Notation ind := (em_indent c).
Notation lf := (break_chars (em_line_break c)).
Hypothesis Hind : (1 <= ind)%Z.
Lemma literal_lines : forall l b x y w i, (b = true -> x = 0%Z /\ i = true) ->
  exists x' y' w' i', runs (literal_loop b l) (mv x y w i c) (ltext lf (Z.to_nat ind) b l) (Ok tt) (mv x' y' w' i' c).
Proof.
  induction l as [|ch r IH]; intros b x y w i Hb; cbn [literal_loop ltext].
  - exists x, y, w, i. apply runs_ret.
  - destruct (is_break_c ch).
    + destruct (IH true 0%Z (y + 1)%Z w true ltac:(auto)) as (x' & y' & w' & i' & R). exists x', y', w', i'.
      unfold btext. refine (runs_seq _ _ _ _ _ _ _ _ (r_write_break _ _ _ _ _ _) _). exact (runs_seq _ _ _ [] _ _ _ _ (r_set_indention _ _ _ _ _ _) R).
    + assert (R1 : exists x1 y1 w1 i1, runs (when b write_indent) (mv x y w i c) (if b then sps (Z.to_nat ind) else []) (Ok tt) (mv x1 y1 w1 i1 c)).
      { destruct b; cbn [when].
        - destruct (Hb eq_refl) as [-> ->]. eexists _, _, _, _. rewrite <- (Z.sub_0_r ind) at 1. apply r_write_indent_stay; lia.
        - eexists _, _, _, _. apply runs_ret. }
      destruct R1 as (x1 & y1 & w1 & i1 & R1). destruct (IH false (x1 + 1)%Z y1 w1 false ltac:(discriminate)) as (x' & y' & w' & i' & R). exists x', y', w', i'.
      refine (runs_seq _ _ _ _ _ _ _ _ R1 _). change (ch :: ltext lf (Z.to_nat ind) false r) with ([ch] ++ [] ++ ltext lf (Z.to_nat ind) false r).
      refine (runs_seq _ _ _ _ _ _ _ _ (r_write_char _ _ _ _ _ _) _). exact (runs_seq _ _ _ _ _ _ _ _ (r_set_indention _ _ _ _ _ _) R).
Qed.
End writers.

Lemma r_set_open k c : runs (modify (set_em_open_ended k)) c [] (Ok tt) (set_em_open_ended k c).
Proof. apply runs_core. intros Hc. apply runs_modify'; [inner|]. unfold is_core in Hc. rewrite <- Hc at 2. destruct c; reflexivity. Qed.
Lemma mv_open x y w i k c : set_em_open_ended k (mv x y w i c) = mv x y w i (set_em_open_ended k c). Proof. reflexivity. Qed.
Lemma hints_text c v x y w i : (1 <= em_best_indent c <= 9)%Z -> exists x' w' i' k,
  runs (write_block_scalar_hints v) (mv x y w i c) (hint_text v (Z.to_N (em_best_indent c)) ++ chomp_text (chomp_of v)) (Ok tt) (mv x' y w' i' (set_em_open_ended k c)).
Proof.
  intros Hb. unfold write_block_scalar_hints.
  assert (R1 : exists x1 w1 i1, runs (if hinted v then write_indicator [48 + Z.to_N (em_best_indent c)] false false false else ret tt) (mv x y w i c) (hint_text v (Z.to_N (em_best_indent c))) (Ok tt) (mv x1 y w1 i1 c)).
  { unfold hint_text. destruct (hinted v); [eexists _, _, _; apply r_write_indicator|eexists _, _, _; apply runs_ret]. }
  destruct R1 as (x1 & w1 & i1 & R1).
  assert (R2 : exists x' w' i' k, runs (modify (set_em_open_ended 0%Z) ;; match rev v with
     | [] => write_indicator [cMINUS] false false false
     | ch :: r => if negb (is_break_c ch) then write_indicator [cMINUS] false false false
                  else if is_breakz (hd_opt r) then modify (set_em_open_ended 2%Z) ;; write_indicator [cPLUS] false false false
                  else ret tt end) (mv x1 y w1 i1 c) (chomp_text (chomp_of v)) (Ok tt) (mv x' y w' i' (set_em_open_ended k c))).
  { unfold chomp_of. destruct (rev v) as [|ch r].
    { eexists _, _, _, _. refine (runs_seq _ _ _ [] _ [45] _ _ (r_set_open _ _) _). rewrite mv_open. apply r_write_indicator. }
    destruct (negb (is_break_c ch)).
    { eexists _, _, _, _. refine (runs_seq _ _ _ [] _ [45] _ _ (r_set_open _ _) _). rewrite mv_open. apply r_write_indicator. }
    assert (Eh : @hd_opt char r = hd_error r) by (destruct r; reflexivity).
    destruct (is_breakz (hd_error r)) eqn:Er.
    - eexists _, _, _, _. refine (runs_seq _ _ _ [] _ [43] _ _ (r_set_open _ _) _). rewrite Eh, Er. refine (runs_seq _ _ _ [] _ [43] _ _ (r_set_open _ _) _). rewrite !mv_open. apply r_write_indicator.
    - eexists _, _, _, _. refine (runs_seq _ _ _ [] _ [] _ _ (r_set_open _ _) _). rewrite Eh, Er, mv_open. apply runs_ret. }
  destruct R2 as (x' & w' & i' & k & R2). exists x', w', i', k. apply runs_get; [reflexivity|].
  refine (runs_seq _ _ _ _ _ _ _ _ _ R2). change (em_best_indent (mv x y w i c)) with (em_best_indent c).
  replace ((0 <=? em_best_indent c) && (em_best_indent c <? 10))%Z with true by lia.
  unfold hinted in R1. destruct v; exact R1.
Qed.
Lemma literal_written c v : (1 <= em_indent c)%Z -> (1 <= em_best_indent c <= 9)%Z -> exists c',
  runs (write_literal_scalar v) c ((if negb (em_whitespace c) then [32] else []) ++ 124 :: hint_text v (Z.to_N (em_best_indent c)) ++ chomp_text (chomp_of v) ++
    break_chars (em_line_break c) ++ ltext (break_chars (em_line_break c)) (Z.to_nat (em_indent c)) true v) (Ok tt) c'.
Proof.
  intros Hi Hb. set (w := em_whitespace c).
  destruct (hints_text c v (em_column c + (if negb w then 1 else 0) + 1)%Z (em_line c) false (em_indention c && false) Hb) as (x1 & w1 & i1 & k & R1).
  destruct (literal_lines (set_em_open_ended k c) Hi v true 0%Z (em_line c + 1)%Z true true ltac:(auto)) as (x' & y' & w' & i' & R2).
  eexists. unfold write_literal_scalar. rewrite (mv_id c) at 1. fold w.
  match goal with |- runs _ _ (?a ++ 124 :: ?b) _ _ => change (124 :: b) with ([124] ++ b); rewrite (app_assoc a) end.
  refine (runs_seq _ _ _ _ _ _ _ _ (r_write_indicator _ [124] true false false _ _ _ _) _). rewrite app_assoc.
  refine (runs_seq _ _ _ _ _ _ _ _ R1 _). refine (runs_seq _ _ _ _ _ _ _ _ (r_put_break _ _ _ _ _) _). exact (runs_seq _ _ _ [] _ _ _ _ (r_set_ws _ _ _ _ _ _ _) R2).
Qed.
Lemma block_lchar u v : block_text u v -> Forall lchar v.
Proof. intros (H & _). eapply Forall_impl; [|exact H]. intros ch W. split; [apply (writable_break _ _ W)|apply (writable_tab _ _ W)]. Qed.
