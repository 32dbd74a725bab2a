(** TokFacts.v -- lemmas on lists of tokens: order of marks, balance of block tokens, insertion. *)
From Coq Require Import ZifyBool ZifyNat ZifyN.
From Verif Require Import Base State Scanner ScanFacts.

(** ** Order of marks *)
(** [ordered lo l hi]: the marks of the tokens of [l] are in order, from [lo] to [hi]. *)
Fixpoint ordered (lo : mark) (l : list token) (hi : mark) : Prop :=
  match l with
  | [] => mark_le lo hi
  | t :: r => mark_le lo (t_start t) /\ mark_le (t_start t) (t_end t) /\ ordered (t_end t) r hi
  end.
Lemma ordered_le lo l hi : ordered lo l hi -> mark_le lo hi.
Proof.
  revert lo. induction l as [|t r IH]; cbn [ordered]; intros lo H; [exact H|].
  destruct H as (H1 & H2 & H3). eapply mark_le_trans; [exact H1|]. eapply mark_le_trans; [exact H2|]. apply IH, H3.
Qed.
Lemma ordered_hi lo l hi hi' : ordered lo l hi -> mark_le hi hi' -> ordered lo l hi'.
Proof.
  revert lo. induction l as [|t r IH]; cbn [ordered]; intros lo H Hh; [eapply mark_le_trans; eassumption|].
  destruct H as (H1 & H2 & H3). auto.
Qed.
Lemma ordered_lo lo lo' l hi : ordered lo l hi -> mark_le lo' lo -> ordered lo' l hi.
Proof.
  destruct l as [|t r]; cbn [ordered]; intros H Hh; [eapply mark_le_trans; eassumption|].
  destruct H as (H1 & H2 & H3). split; [eapply mark_le_trans; eassumption|auto].
Qed.
Lemma ordered_app lo a mid b hi : ordered lo a mid -> ordered mid b hi -> ordered lo (a ++ b) hi.
Proof.
  revert lo. induction a as [|t r IH]; cbn [ordered app]; intros lo Ha Hb; [eapply ordered_lo; eassumption|].
  destruct Ha as (H1 & H2 & H3). auto.
Qed.
(** If [a] ends before [m] and the tokens of [a ++ b] start after [lo], so do those of [a]. *)
Lemma ordered_mid lo lo' a b hi m : ordered lo (a ++ b) hi -> ordered lo' a m -> mark_le lo m -> ordered lo a m.
Proof.
  destruct a as [|t a]; cbn [ordered app]; [auto|]. intros (H1 & _ & _) (_ & H2 & H3) _. auto.
Qed.

(** ** Balance of block tokens *)
Definition opens (d : token_data) : bool :=
  match d with TBlockSequenceStart | TBlockMappingStart => true | _ => false end.
Definition closes (d : token_data) : bool := match d with TBlockEnd => true | _ => false end.
(** The number of open block collections after the tokens, if none is closed before it is opened. *)
Fixpoint depth (d : nat) (l : list token) : option nat :=
  match l with
  | [] => Some d
  | t :: r => if opens (t_data t) then depth (S d) r
              else if closes (t_data t) then match d with O => None | S d' => depth d' r end
              else depth d r
  end.
Lemma depth_app d a b : depth d (a ++ b) = match depth d a with Some n => depth n b | None => None end.
Proof.
  revert d. induction a as [|t r IH]; cbn [depth app]; intros d; [reflexivity|].
  destruct (opens _); [apply IH|]. destruct (closes _); [|apply IH]. destruct d; [reflexivity|apply IH].
Qed.
Lemma depth_S d l n : depth d l = Some n -> depth (S d) l = Some (S n).
Proof.
  revert d. induction l as [|t r IH]; cbn [depth]; intros d H; [congruence|].
  destruct (opens _); [auto|]. destruct (closes _); [|auto]. destruct d; [discriminate|auto].
Qed.

(** ** Insertion *)
Definition ins (j : nat) (t : token) (l : list token) : list token := firstn j l ++ t :: skipn j l.
Lemma ins_length j t l : (j <= length l)%nat -> length (ins j t l) = S (length l).
Proof. intros H. unfold ins. rewrite app_length. cbn [length]. rewrite firstn_length, skipn_length. lia. Qed.
Lemma ins_app del l k t : (k <= length l)%nat ->
  del ++ (firstn k l ++ t :: skipn k l) = ins (length del + k) t (del ++ l).
Proof.
  intros H. unfold ins. rewrite firstn_app, skipn_app, (firstn_all2 (n := length del + k)%nat del), (skipn_all2 (n := length del + k)%nat del) by lia.
  replace (length del + k - length del)%nat with k by lia. rewrite app_assoc. reflexivity.
Qed.
Lemma ins_firstn_lt j j2 t l : (j2 <= j)%nat -> (j <= length l)%nat -> firstn j2 (ins j t l) = firstn j2 l.
Proof.
  intros H Hl. unfold ins. rewrite firstn_app, firstn_firstn, firstn_length.
  replace (Nat.min j2 j) with j2 by lia. replace (j2 - Nat.min j (length l))%nat with 0%nat by lia.
  cbn. apply app_nil_r.
Qed.
Lemma ins_skipn_le j j2 t l : (j2 <= j)%nat -> (j <= length l)%nat ->
  skipn j2 (ins j t l) = skipn j2 (firstn j l) ++ t :: skipn j l.
Proof.
  intros H Hl. unfold ins. rewrite skipn_app, firstn_length.
  replace (j2 - Nat.min j (length l))%nat with 0%nat by lia. reflexivity.
Qed.
Lemma split_mid j2 j (l : list token) : (j2 <= j)%nat ->
  firstn j l = firstn j2 l ++ skipn j2 (firstn j l) /\ skipn j2 l = skipn j2 (firstn j l) ++ skipn j l.
Proof.
  intros H. split.
  - rewrite <- (firstn_skipn j2 (firstn j l)) at 1. rewrite firstn_firstn.
    replace (Nat.min j2 j) with j2 by lia. reflexivity.
  - destruct (Nat.le_gt_cases j (length l)).
    + rewrite <- (firstn_skipn j l) at 1. rewrite skipn_app, firstn_length.
      replace (j2 - Nat.min j (length l))%nat with 0%nat by lia. reflexivity.
    + rewrite firstn_all2, (skipn_all2 (n := j)), app_nil_r by lia. reflexivity.
Qed.
Lemma depth_ins_open j t l n d : opens (t_data t) = true -> depth d l = Some n -> depth d (ins j t l) = Some (S n).
Proof.
  intros Ho H. unfold ins. rewrite <- (firstn_skipn j l), depth_app in H. rewrite depth_app.
  destruct (depth d (firstn j l)); [|discriminate]. cbn [depth]. rewrite Ho. apply depth_S, H.
Qed.
Lemma depth_ins_neutral j t l d : opens (t_data t) = false -> closes (t_data t) = false -> depth d (ins j t l) = depth d l.
Proof.
  intros Ho Hc. unfold ins. rewrite <- (firstn_skipn j l) at 3. rewrite !depth_app.
  destruct (depth d (firstn j l)); [|reflexivity]. cbn [depth]. rewrite Ho, Hc. reflexivity.
Qed.
Lemma ins_Forall (P : token -> Prop) j t l : P t -> Forall P l -> Forall P (ins j t l).
Proof.
  intros Ht Hl. unfold ins. rewrite <- (firstn_skipn j l) in Hl. apply Forall_app in Hl. destruct Hl.
  apply Forall_app. auto.
Qed.
