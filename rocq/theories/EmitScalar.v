(** EmitScalar.v -- the text of the writers of scalars: lemmas about [runs] (EmitText.v) in a normal
    form of the state. *)
From Coq Require Import Lia ZifyBool ZifyNat ZifyN Bool.
From Verif Require Import Base Utf Chars EState Emitter EmitText.
Open Scope N_scope.

(** The part of the state the writers change. *)
Definition mv (x y : Z) (w i : bool) (c : est) : est :=
  set_em_column x (set_em_line y (set_em_whitespace w (set_em_indention i c))).
Lemma mv_id c : c = mv (em_column c) (em_line c) (em_whitespace c) (em_indention c) c.
Proof. destruct c; reflexivity. Qed.
Lemma core_mv x y w i c : core (mv x y w i c) = mv x y w i (core c). Proof. reflexivity. Qed.
Lemma is_core_mv x y w i c : is_core (mv x y w i c) -> forall x' y' w' i', core (mv x' y' w' i' c) = mv x' y' w' i' c.
Proof. intros H x' y' w' i'. unfold is_core in H. change (mv x' y' w' i' (core (mv x y w i c)) = mv x' y' w' i' (mv x y w i c)). rewrite H. reflexivity. Qed.

Section mv.
Variable c : est.
Lemma r_put ch x y w i : runs (put ch) (mv x y w i c) [ch] (Ok tt) (mv (x + 1) y w i c).
Proof. exact (runs_put ch (mv x y w i c)). Qed.
Lemma r_write_char ch x y w i : runs (write_char ch) (mv x y w i c) [ch] (Ok tt) (mv (x + 1) y w i c).
Proof. exact (runs_put ch (mv x y w i c)). Qed.
Lemma r_put_break x y w i : runs put_break (mv x y w i c) (break_chars (em_line_break c)) (Ok tt) (mv 0 (y + 1) w i c).
Proof. exact (runs_put_break (mv x y w i c)). Qed.
Lemma r_modify f x y w i x' y' w' i' : inner f -> f (mv x y w i c) = mv x' y' w' i' c -> runs (modify f) (mv x y w i c) [] (Ok tt) (mv x' y' w' i' c).
Proof. intros H E. apply runs_core. intros Hc. rewrite <- E. apply runs_modify'; [exact H|]. rewrite E. apply (is_core_mv _ _ _ _ _ Hc). Qed.
Lemma r_set_ws a b x y w i : runs (set_ws a b) (mv x y w i c) [] (Ok tt) (mv x y a b c).
Proof. apply r_modify; [inner|reflexivity]. Qed.
Lemma r_set_indention b x y w i : runs (set_indention b) (mv x y w i c) [] (Ok tt) (mv x y w b c).
Proof. apply r_modify; [inner|reflexivity]. Qed.
Lemma r_write_break ch x y w i : runs (write_break ch) (mv x y w i c) (if ch =? cLF then break_chars (em_line_break c) else [ch]) (Ok tt) (mv 0 (y + 1) w i c).
Proof.
  unfold write_break. refine (runs_seq _ _ _ [] _ _ _ _ (runs_flush_if_needed _) _). destruct (ch =? cLF); [apply r_put_break|].
  refine (runs_seq _ _ _ [ch] _ [] _ _ (r_write_char _ _ _ _ _) _). unfold new_line. apply r_modify; [inner|reflexivity].
Qed.
Definition sps (n : nat) : str := repeat cSP n.
Lemma r_put_spaces n : forall x y w i, runs (put_spaces n) (mv x y w i c) (sps n) (Ok tt) (mv (x + Z.of_nat n) y w i c).
Proof.
  induction n as [|n IH]; intros x y w i; cbn [put_spaces sps repeat].
  - eapply runs_conseq; [apply runs_ret|reflexivity|reflexivity|]. rewrite Z.add_0_r. reflexivity.
  - eapply runs_conseq; [eapply (runs_seq _ _ _ [cSP]); [apply r_put|apply IH]|reflexivity|reflexivity|]. f_equal. lia.
Qed.
Lemma r_write_str l x y w i : runs (write_str l) (mv x y w i c) l (Ok tt) (mv (x + Z.of_nat (length l)) y w i c).
Proof. exact (runs_write_str l (mv x y w i c)). Qed.
Lemma r_if (b : bool) {A} (m : M est A) s d1 c1 r1 m2 d2 r2 c2 : (b = true -> runs m s d1 r1 c1) -> (b = false -> runs m2 s d2 r2 c2) ->
  runs (if b then m else m2) s (if b then d1 else d2) (if b then r1 else r2) (if b then c1 else c2).
Proof. intros H1 H2. destruct b; auto. Qed.
Lemma r_write_indicator l nw iw ii x y w i :
  runs (write_indicator l nw iw ii) (mv x y w i c) ((if nw && negb w then [cSP] else []) ++ l) (Ok tt)
       (mv (x + (if nw && negb w then 1 else 0) + Z.of_nat (length l)) y iw (i && ii) c).
Proof.
  unfold write_indicator. apply runs_get; [reflexivity|]. change (em_whitespace (mv x y w i c)) with w.
  eapply (runs_seq _ _ _ _ (mv (x + (if nw && negb w then 1 else 0)) y w i c)).
  { destruct (nw && negb w); [apply r_put|]. rewrite Z.add_0_r. apply runs_ret. }
  refine (runs_conseq _ _ _ _ _ _ _ _ (runs_seq _ _ _ l _ [] _ _ (r_write_str _ _ _ _ _) _) (app_nil_r _) eq_refl eq_refl).
  apply r_modify; [inner|reflexivity].
Qed.
(** [write_indent], at an indentation of at least 1. *)
Lemma r_write_indent_break x y w i : (0 <= em_indent c)%Z -> negb i || (em_indent c <? x)%Z || (x =? em_indent c)%Z && negb w = true ->
  runs write_indent (mv x y w i c) (break_chars (em_line_break c) ++ sps (Z.to_nat (em_indent c))) (Ok tt) (mv (em_indent c) (y + 1) true true c).
Proof.
  intros Hi Hb. unfold write_indent. apply runs_get; [reflexivity|]. change (em_indent (mv x y w i c)) with (em_indent c).
  change (em_indention (mv x y w i c)) with i. change (em_whitespace (mv x y w i c)) with w. change (em_column (mv x y w i c)) with x.
  replace (0 <=? em_indent c)%Z with true by lia. cbv zeta. rewrite Hb. cbn [when].
  refine (runs_seq _ _ _ _ (mv 0 (y + 1) w i c) _ _ _ (r_put_break _ _ _ _) _).
  apply runs_get; [reflexivity|]. change (em_column (mv 0 (y + 1) w i c)) with 0%Z. rewrite Z.sub_0_r.
  refine (runs_conseq _ _ _ _ _ _ _ _ (runs_seq _ _ _ _ _ [] _ _ (r_put_spaces _ _ _ _ _) _) (app_nil_r _) eq_refl eq_refl).
  rewrite Z.add_0_l, Z2Nat.id by lia. apply r_set_ws.
Qed.
Lemma r_write_indent_stay x y w : (0 <= em_indent c)%Z -> (x < em_indent c \/ x = em_indent c /\ w = true)%Z ->
  runs write_indent (mv x y w true c) (sps (Z.to_nat (em_indent c - x))) (Ok tt) (mv (em_indent c) y true true c).
Proof.
  intros Hi Hb. unfold write_indent. apply runs_get; [reflexivity|]. change (em_indent (mv x y w true c)) with (em_indent c).
  change (em_indention (mv x y w true c)) with true. change (em_whitespace (mv x y w true c)) with w. change (em_column (mv x y w true c)) with x.
  replace (0 <=? em_indent c)%Z with true by lia. cbv zeta.
  replace (negb true || (em_indent c <? x)%Z || (x =? em_indent c)%Z && negb w) with false by (cbn [negb orb]; destruct Hb as [Hb|[Hb ->]]; lia).
  cbn [when]. refine (runs_seq _ _ _ [] (mv x y w true c) _ _ _ (runs_ret _ _) _).
  apply runs_get; [reflexivity|]. change (em_column (mv x y w true c)) with x.
  refine (runs_conseq _ _ _ _ _ _ _ _ (runs_seq _ _ _ _ _ [] _ _ (r_put_spaces _ _ _ _ _) _) (app_nil_r _) eq_refl eq_refl).
  rewrite Z2Nat.id by lia. replace (x + (em_indent c - x))%Z with (em_indent c) by lia. apply r_set_ws.
Qed.
Lemma r_iter_put l : forall x y w i, runs (iterM put l) (mv x y w i c) l (Ok tt) (mv (x + Z.of_nat (length l)) y w i c).
Proof.
  induction l as [|ch l IH]; intros x y w i; cbn [iterM].
  - eapply runs_conseq; [apply runs_ret|reflexivity|reflexivity|]. rewrite Z.add_0_r. reflexivity.
  - eapply runs_conseq; [eapply (runs_seq _ _ _ [ch]); [apply r_put|apply IH]|reflexivity|reflexivity|]. f_equal. cbn [length]. lia.
Qed.
End mv.
