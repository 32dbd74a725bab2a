(** LexBase.v -- partial correctness of the scanner with respect to the text it reads. *)
From Coq Require Import Lia ZifyBool ZifyNat ZifyN Bool.
From Verif Require Import Base Utf Chars State Reader Scanner Wp ReaderFacts ReadFacts Spec_Lexical.
Open Scope N_scope.

(** ** Partial correctness *)
Definition pc {A} (m : M sst A) (Q : A -> sst -> Prop) (s : sst) : Prop :=
  match m s with (Ok a, s') => Q a s' | _ => True end.
Lemma pc_conseq {A} (m : M sst A) (Q Q' : A -> sst -> Prop) s : pc m Q s -> (forall a s', Q a s' -> Q' a s') -> pc m Q' s.
Proof. unfold pc. destruct (m s) as [[] ]; auto. Qed.
Lemma pc_bind {A B} (m : M sst A) (k : A -> M sst B) Q s : pc m (fun a s' => pc (k a) Q s') s -> pc (bind m k) Q s.
Proof. unfold pc, bind. destruct (m s) as [[] ]; auto. Qed.
Lemma pc_seq {A B} (m : M sst A) (k : A -> M sst B) (Q1 : A -> sst -> Prop) Q s : pc m Q1 s -> (forall a s', Q1 a s' -> pc (k a) Q s') -> pc (bind m k) Q s.
Proof. intros H1 H2. apply pc_bind. eapply pc_conseq; eauto. Qed.
Lemma pc_ret {A} (a : A) (Q : A -> sst -> Prop) s : Q a s -> pc (ret a) Q s. Proof. exact (fun H => H). Qed.
Lemma pc_fail {A} e (Q : A -> sst -> Prop) s : pc (fail e) Q s. Proof. exact I. Qed.
Lemma pc_panics {A} p (Q : A -> sst -> Prop) s : pc (panics p) Q s. Proof. exact I. Qed.
Lemma pc_error {A} c m p (Q : A -> sst -> Prop) s : pc (scan_error c m p) Q s. Proof. exact I. Qed.
Lemma pc_get (Q : sst -> sst -> Prop) s : Q s s -> pc get Q s. Proof. exact (fun H => H). Qed.
Lemma pc_gets {A} (f : sst -> A) (Q : A -> sst -> Prop) s : Q (f s) s -> pc (gets f) Q s. Proof. exact (fun H => H). Qed.
Lemma pc_modify f (Q : unit -> sst -> Prop) s : Q tt (f s) -> pc (modify f) Q s. Proof. exact (fun H => H). Qed.
Lemma pc_wp {A} (m : M sst A) Q E P s : wp m Q E P s -> pc m Q s.
Proof. unfold wp, pc. destruct (m s) as [[] ]; auto. Qed.
Lemma pc_loopM {A B} (I : A -> sst -> Prop) (body : A -> M sst (A + B)) (Q : B -> sst -> Prop) :
  (forall a s, I a s -> pc (body a) (fun x s' => match x with inl a' => I a' s' | inr b => Q b s' end) s) ->
  forall n a s, I a s -> pc (loopM n body a) Q s.
Proof.
  intros H n. induction n as [|n IH]; intros a s Ha; [exact Logic.I|]. cbn [loopM]. eapply pc_seq; [apply (H a s Ha)|]. cbn beta.
  intros [a'|b] s' X; [apply IH, X|apply pc_ret, X].
Qed.
Lemma pc_loop {A B} (I : A -> sst -> Prop) (body : A -> M sst (A + B)) (Q : B -> sst -> Prop) a s :
  (forall a s, I a s -> pc (body a) (fun x s' => match x with inl a' => I a' s' | inr b => Q b s' end) s) ->
  I a s -> pc (loop body a) Q s.
Proof. intros H Ha. unfold loop. apply (pc_loopM I body Q H _ a s Ha). Qed.

(** ** Positions *)
Lemma size_utf8 c : utf8_size c = len_utf8 c. Proof. reflexivity. Qed.
Lemma breaks_is c : breaks_line c = is_break_c c.
Proof. unfold breaks_line, is_break_c. destruct (c =? 10), (c =? 13); reflexivity. Qed.
Definition mk (p : str) : mark * bool := fold_left step_mark p (Mk_mark 0 0 0, false).
Lemma mk_app p q : mk (p ++ q) = fold_left step_mark q (mk p). Proof. apply fold_left_app. Qed.
Lemma position_plain p c : breaks_line c = false -> position (p ++ [c]) = advance (len_utf8 c) (position p) /\ snd (mk (p ++ [c])) = false.
Proof.
  intros H. unfold position. fold (mk (p ++ [c])). fold (mk p). rewrite mk_app. cbn [fold_left]. destruct (mk p) as [m cr]. cbn [step_mark fst snd].
  assert (E : c =? 10 = false) by (unfold breaks_line in H; destruct (c =? 10); [discriminate|reflexivity]). rewrite E, andb_false_r, H. split; reflexivity.
Qed.
Lemma position_break p c : breaks_line c = true -> (snd (mk p) = true -> c <> 10) -> position (p ++ [c]) = next_line (len_utf8 c) (position p) /\ snd (mk (p ++ [c])) = (c =? 13).
Proof.
  intros H Hc. unfold position. fold (mk (p ++ [c])). fold (mk p). rewrite mk_app. cbn [fold_left]. destruct (mk p) as [m cr]. cbn [step_mark fst snd] in *.
  destruct cr; cbn [andb]; [destruct (N.eqb_spec c 10) as [E|E]; [destruct (Hc eq_refl E)|]|]; rewrite H; split; reflexivity.
Qed.
Lemma position_crlf2 p : position (p ++ [13; 10]) = next_line 2 (position p) /\ snd (mk (p ++ [13; 10])) = false.
Proof.
  unfold position. fold (mk (p ++ [13; 10])). fold (mk p). rewrite mk_app. cbn [fold_left]. destruct (mk p) as [m cr]. unfold step_mark. cbn. rewrite andb_false_r. cbn. unfold next_line. split; [|reflexivity]. f_equal; lia.
Qed.

(** ** Where the scanner is *)
Section text.
Variable rest : list byte.
Variable T : str.
(** After [p], with [r] to come and [k] characters at hand. *)
Record H (k : nat) (p r : str) (s : sst) : Prop := {
  h_T : T = p ++ r;
  h_text : text rest r s;
  h_pos : pos s = position p;
  h_cr : snd (mk p) = true -> hd 0 r <> 10;
  h_full : (k <= length (buffer s))%nat \/ buffer s = r /\ rest = [] }.
Lemma H_less k k' p r s : (k' <= k)%nat -> H k p r s -> H k' p r s.
Proof. intros L []. constructor; auto. destruct h_full0 as [?|?]; [left; lia|auto]. Qed.
Lemma H_get k p r s i : H k p r s -> (i < k)%nat -> bget i s = nth_error r i.
Proof.
  intros Hh Hi. destruct (text_buffer _ _ _ (h_text _ _ _ _ Hh)) as [x E]. unfold bget. destruct (h_full _ _ _ _ Hh) as [L|[E' _]]; [|rewrite E'; reflexivity].
  rewrite E, nth_error_app1 by lia. reflexivity.
Qed.
Lemma H_some k p r s i c : H k p r s -> bget i s = Some c -> nth_error r i = Some c.
Proof.
  intros Hh Hb. destruct (text_buffer _ _ _ (h_text _ _ _ _ Hh)) as [x E]. unfold bget in Hb. rewrite E, nth_error_app1; [exact Hb|]. apply nth_error_Some. rewrite Hb. discriminate.
Qed.
Lemma H_head k p r s c : H k p r s -> bget 0 s = Some c -> exists r', r = c :: r'.
Proof. intros Hh Hb. apply (H_some _ _ _ _ _ _ Hh) in Hb. destruct r as [|d r]; [discriminate|]. injection Hb as ->. eauto. Qed.
Definition same (s s' : sst) : Prop := frame s' = frame s.
Lemma same_refl s : same s s. Proof. reflexivity. Qed.
Lemma same_trans a b c : same a b -> same b c -> same a c. Proof. unfold same. congruence. Qed.

Lemma L_cache n k p r s : H k p r s -> pc (cache n) (fun _ s' => H (Nat.max n k) p r s' /\ same s s') s.
Proof.
  intros Hh. eapply pc_conseq; [eapply pc_wp, (cache_text n _ _ _ (h_text _ _ _ _ Hh))|]. cbn beta. intros _ s' (T' & R & F). split; [|exact (rd_frame _ _ R)].
  destruct Hh. constructor; auto; [rewrite (rd_pos _ _ R); assumption|]. destruct (rd_buf _ _ R) as (x & Ex & _). 
  destruct F as [F|F]; [|right; exact F]. destruct h_full0 as [G|[G1 G2]].
  - left. rewrite Ex, app_length in *. lia.
  - destruct (text_buffer _ _ _ T') as [y Ey]. right. split; [|exact G2]. rewrite Ex in Ey |- *. rewrite <- G1 in Ey. rewrite <- app_assoc in Ey.
    assert (E0 : x ++ y = []) by (apply (app_inv_head (buffer s)); rewrite app_nil_r; symmetry; exact Ey). apply app_eq_nil in E0. destruct E0 as [-> _]. rewrite app_nil_r. exact G1.
Qed.
(** Taking a character that is not a line break. *)
Lemma take k p c r s b : H k p (c :: r) s -> buffer s = c :: b -> breaks_line c = false ->
  H (k - 1) (p ++ [c]) r (set_pos (advance (len_utf8 c) (pos s)) (set_buffer b s)).
Proof.
  intros Hh Eb Hc. destruct (position_plain p c Hc) as [P1 P2]. destruct Hh. constructor.
  - rewrite h_T0, <- app_assoc. reflexivity.
  - pose proof (text_pop _ _ _ _ _ h_text0 Eb) as X. destruct X. constructor; assumption.
  - cbn [pos set_pos]. rewrite h_pos0, P1. reflexivity.
  - rewrite P2. discriminate.
  - change (buffer (set_pos _ (set_buffer b s))) with b. destruct h_full0 as [L|[L1 L2]]; [left; rewrite Eb in L; cbn in L; lia|]. right. rewrite Eb in L1. injection L1 as ->. auto.
Qed.
Lemma L_skip k p r s : H k p r s -> breaks_line (hd 0 r) = false ->
  pc skip_char (fun _ s' => exists c r', r = c :: r' /\ bget 0 s = Some c /\ H (k - 1) (p ++ [c]) r' s' /\ same s s') s.
Proof.
  intros Hh Hc. unfold pc, skip_char. destruct (buffer s) as [|c b] eqn:Eb; [exact Logic.I|].
  assert (Hb : bget 0 s = Some c) by (unfold bget; rewrite Eb; reflexivity). destruct (H_head _ _ _ _ _ Hh Hb) as [r' ->]. cbn [hd] in Hc.
  exists c, r'. split; [reflexivity|]. split; [exact Hb|]. split; [apply (take k p c r' s b Hh Eb Hc)|reflexivity].
Qed.
Lemma L_read k p r s x : H k p r s -> breaks_line (hd 0 r) = false ->
  pc (read_char x) (fun x' s' => exists c r', r = c :: r' /\ bget 0 s = Some c /\ x' = x ++ [c] /\ H (k - 1) (p ++ [c]) r' s' /\ same s s') s.
Proof.
  intros Hh Hc. unfold pc, read_char. destruct (buffer s) as [|c b] eqn:Eb; [exact Logic.I|].
  assert (Hb : bget 0 s = Some c) by (unfold bget; rewrite Eb; reflexivity). destruct (H_head _ _ _ _ _ Hh Hb) as [r' ->]. cbn [hd] in Hc.
  exists c, r'. split; [reflexivity|]. split; [exact Hb|]. split; [reflexivity|]. split; [apply (take k p c r' s b Hh Eb Hc)|reflexivity].
Qed.
(** Taking a line break. *)
Definition break_texts : list str := [[13; 10]; [13]; [10]; [133]; [8232]; [8233]].
Lemma take_break k p r s : H k p r s -> (2 <= k)%nat -> breaks_line (hd 0 r) = true -> exists b r', r = b ++ r' /\ In b break_texts /\ (b = [13] -> hd 0 r' <> 10) /\
  forall x, skip_line_break s = (Ok tt, snd (skip_line_break s)) /\ read_line_break x s = (Ok (x ++ breaks_of b), snd (skip_line_break s)) /\
  H (k - 2) (p ++ b) r' (snd (skip_line_break s)) /\ same s (snd (skip_line_break s)).
Proof.
  intros Hh Hk Hb. destruct r as [|c r]; [discriminate|]. cbn [hd] in Hb.
  pose proof (H_get _ _ _ _ 0 Hh ltac:(lia)) as G0. pose proof (H_get _ _ _ _ 1 Hh ltac:(lia)) as G1. cbn [nth_error] in G0. unfold bget in G0, G1.
  destruct (buffer s) as [|c' b] eqn:Eb; [discriminate|]. cbn [nth_error] in G0. injection G0 as ->. change (nth_error b 0 = nth_error r 0) in G1.
  destruct ((c =? cCR) && chk cLF (nth_error b 0)) eqn:E2.
  - apply andb_prop in E2. destruct E2 as [Ec El]. apply N.eqb_eq in Ec. subst c. destruct b as [|d b]; [discriminate|]. cbn in El. apply N.eqb_eq in El. subst d.
    destruct r as [|d r]; [discriminate|]. cbn in G1. injection G1 as <-. exists [13; 10], r. split; [reflexivity|]. split; [left; reflexivity|]. split; [discriminate|]. intros x.
    unfold skip_line_break, read_line_break. rewrite Eb. cbn [N.eqb Pos.eqb nth_error chk andb skipn snd]. split; [reflexivity|]. split; [reflexivity|]. split; [|reflexivity].
    destruct (position_crlf2 p) as [P1 P2]. destruct Hh. constructor.
    + rewrite h_T0, <- app_assoc. reflexivity.
    + pose proof (text_pop _ _ _ _ _ h_text0 Eb) as X. pose proof (text_pop _ _ _ b _ X eq_refl) as Y. destruct Y. constructor; assumption.
    + cbn [pos set_pos]. rewrite h_pos0. symmetry. exact P1.
    + intros X. exfalso. assert (Z : true = false) by (etransitivity; [symmetry; exact X|exact P2]). discriminate Z.
    + change (buffer (set_pos _ (set_buffer b s))) with b. destruct h_full0 as [L|[L1 L2]]; [left; rewrite Eb in L; cbn in L; lia|]. right. rewrite Eb in L1. injection L1 as ->. auto.
  - exists [c], r. split; [reflexivity|].
    assert (Hc : c = 13 -> hd 0 r <> 10).
    { intros -> E. rewrite G1 in E2. destruct r as [|d r]; [discriminate E|]. cbn in E. subst d. discriminate E2. }
    assert (Hin : In [c] break_texts /\ (forall x, (x ++ [if len_utf8 c =? 3 then c else cLF]) = x ++ breaks_of [c])).
    { unfold breaks_line in Hb. destruct (N.eqb_spec c 10) as [->|]; [split; [cbn; tauto|reflexivity]|]. destruct (N.eqb_spec c 13) as [->|]; [split; [cbn; tauto|reflexivity]|].
      destruct (N.eqb_spec c 133) as [->|]; [split; [cbn; tauto|reflexivity]|]. destruct (N.eqb_spec c 8232) as [->|]; [split; [cbn; tauto|reflexivity]|].
      destruct (N.eqb_spec c 8233) as [->|]; [split; [cbn; tauto|reflexivity]|discriminate]. }
    destruct Hin as [Hin Hn]. split; [exact Hin|]. split; [intros [= ->]; apply Hc; reflexivity|]. intros x.
    unfold skip_line_break, read_line_break. rewrite Eb, E2. rewrite <- breaks_is, Hb. cbn [snd]. rewrite Hn. split; [reflexivity|]. split; [reflexivity|]. split; [|reflexivity].
    destruct (position_break p c Hb ltac:(intros Y ->; apply (h_cr _ _ _ _ Hh Y); reflexivity)) as [P1 P2]. destruct Hh. constructor.
    + rewrite h_T0, <- app_assoc. reflexivity.
    + pose proof (text_pop _ _ _ _ _ h_text0 Eb) as X. destruct X. constructor; assumption.
    + cbn [pos set_pos]. rewrite h_pos0, P1. reflexivity.
    + rewrite P2. intros E. apply N.eqb_eq in E. apply Hc, E.
    + change (buffer (set_pos _ (set_buffer b s))) with b. destruct h_full0 as [L|[L1 L2]]; [left; rewrite Eb in L; cbn in L; lia|]. right. rewrite Eb in L1. injection L1 as ->. auto.
Qed.
Lemma L_skip_break k p r s : H k p r s -> (2 <= k)%nat -> breaks_line (hd 0 r) = true ->
  pc skip_line_break (fun _ s' => exists b r', r = b ++ r' /\ In b break_texts /\ (b = [13] -> hd 0 r' <> 10) /\ H (k - 2) (p ++ b) r' s' /\ same s s') s.
Proof. intros Hh Hk Hb. destruct (take_break k p r s Hh Hk Hb) as (b & r' & E & B1 & B2 & X). destruct (X []) as (X1 & _ & X3 & X4). unfold pc. rewrite X1. exists b, r'. auto. Qed.
Lemma L_read_break k p r s x : H k p r s -> (2 <= k)%nat -> breaks_line (hd 0 r) = true ->
  pc (read_line_break x) (fun x' s' => exists b r', r = b ++ r' /\ In b break_texts /\ (b = [13] -> hd 0 r' <> 10) /\ x' = x ++ breaks_of b /\ H (k - 2) (p ++ b) r' s' /\ same s s') s.
Proof. intros Hh Hk Hb. destruct (take_break k p r s Hh Hk Hb) as (b & r' & E & B1 & B2 & X). destruct (X x) as (_ & X2 & X3 & X4). unfold pc. rewrite X2. exists b, r'. auto 6. Qed.

(** The recurring loops. *)
Lemma L_skip_while (cond : sst -> bool) (ok : char -> Prop) k p r s : H k p r s -> (1 <= k)%nat ->
  (forall s, cond s = true -> exists c, bget 0 s = Some c /\ ok c /\ breaks_line c = false) ->
  pc (skip_while cond) (fun _ s' => exists w r', r = w ++ r' /\ Forall ok w /\ H 1 (p ++ w) r' s' /\ same s s' /\ cond s' = false) s.
Proof.
  intros Hh Hk Hc. unfold skip_while.
  apply (pc_loop (fun (_ : unit) s' => exists w r', r = w ++ r' /\ Forall ok w /\ H 1 (p ++ w) r' s' /\ same s s')).
  2:{ exists [], r. rewrite app_nil_r. split; [reflexivity|]. split; [constructor|]. split; [eapply H_less; eauto|reflexivity]. }
  intros _ s1 (w & r1 & -> & Fw & H1 & S1). apply pc_bind, pc_get. destruct (cond s1) eqn:Ec; [|apply pc_ret; exists w, r1; auto 6].
  destruct (Hc s1 Ec) as (c & Hb & Ok & Hn). destruct (H_head _ _ _ _ _ H1 Hb) as [r2 ->].
  eapply pc_seq; [apply (L_skip _ _ _ _ H1 Hn)|]. cbn beta. intros _ s2 (c' & r' & [= <- <-] & _ & H2 & S2).
  eapply pc_seq; [apply (L_cache 1 _ _ _ _ H2)|]. cbn beta. intros _ s3 (H3 & S3). apply pc_ret. exists (w ++ [c]), r2. rewrite <- !app_assoc in *. split; [reflexivity|]. split; [apply Forall_app; auto|].
  split; [exact H3|]. eapply same_trans; [exact S1|]. eapply same_trans; eauto.
Qed.
Lemma L_read_while (cond : sst -> bool) (ok : char -> Prop) x k p r s : H k p r s -> (1 <= k)%nat ->
  (forall s, cond s = true -> exists c, bget 0 s = Some c /\ ok c /\ breaks_line c = false) ->
  pc (read_while cond x) (fun x' s' => exists w r', r = w ++ r' /\ Forall ok w /\ x' = x ++ w /\ H 1 (p ++ w) r' s' /\ same s s' /\ cond s' = false) s.
Proof.
  intros Hh Hk Hc. unfold read_while.
  apply (pc_loop (fun (x' : str) s' => exists w r', r = w ++ r' /\ Forall ok w /\ x' = x ++ w /\ H 1 (p ++ w) r' s' /\ same s s')).
  2:{ exists [], r. rewrite !app_nil_r. split; [reflexivity|]. split; [constructor|]. split; [reflexivity|]. split; [eapply H_less; eauto|reflexivity]. }
  intros x' s1 (w & r1 & -> & Fw & -> & H1 & S1). apply pc_bind, pc_get. destruct (cond s1) eqn:Ec; [|apply pc_ret; exists w, r1; auto 7].
  destruct (Hc s1 Ec) as (c & Hb & Ok & Hn). destruct (H_head _ _ _ _ _ H1 Hb) as [r2 ->].
  eapply pc_seq; [apply (L_read _ _ _ _ (x ++ w) H1 Hn)|]. cbn beta. intros x2 s2 (c' & r' & [= <- <-] & _ & -> & H2 & S2).
  eapply pc_seq; [apply (L_cache 1 _ _ _ _ H2)|]. cbn beta. intros _ s3 (H3 & S3). apply pc_ret. exists (w ++ [c]), r2. rewrite <- !app_assoc in *. split; [reflexivity|]. split; [apply Forall_app; auto|].
  split; [reflexivity|]. split; [exact H3|]. eapply same_trans; [exact S1|]. eapply same_trans; eauto.
Qed.
End text.
