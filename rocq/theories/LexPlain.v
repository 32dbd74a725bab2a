(** LexPlain.v -- the text of plain scalars. *)
From Coq Require Import Lia ZifyBool ZifyNat ZifyN Bool.
From Verif Require Import Base Utf Chars State Reader Scanner Wp ReaderFacts ReadFacts ScanFacts Spec_Lexical LexBase LexScan LexNames LexQuoted.
Open Scope N_scope.

Section text.
Variable rest : list byte.
Variable T : str.
Notation H := (H rest T).
Implicit Types p r w g : str.

(** Text [w] read, then [g] pending. *)
Record pl (k : nat) p r (s : sst) (x : plain_st) (s' : sst) w g r' : Prop := {
  p_r : r = w ++ g ++ r';
  p_H : H k (p ++ w ++ g) r' s';
  p_same : same s s';
  p_ext : ext Plain w (pl_string x);
  p_end : pl_end x = position (p ++ w);
  p_g : gathered false g (pl_leading_break x) (pl_trailing_breaks x) (pl_whitespaces x) (pl_leading_blanks x);
  p_first : no_filler w;
  p_last : no_filler (rev w);
  p_nil : w = [] -> g = [];
  p_colon : forall a b, w = a ++ 58 :: b -> solid (b ++ g ++ r');
  p_hash : forall a c b, w = a ++ c :: 35 :: b -> filler c = false;
  p_flow : flow_level s <> 0 -> Forall (fun c => flow_indicator c = false) w }.
Lemma split_snoc (w g a b : str) c d : w ++ g ++ [c] = a ++ d :: b -> Forall (fun x => filler x = true) g -> filler d = false ->
  (exists b0, w = a ++ d :: b0 /\ b = b0 ++ g ++ [c]) \/ (a = w ++ g /\ d = c /\ b = []).
Proof.
  intros E F N. revert a E. induction w as [|x w IH]; intros a E.
  - cbn [app] in E. right. revert a E. induction g as [|y g IHg]; intros a E.
    + destruct a as [|z a]; [injection E as <- <-; auto|]. injection E as _ E. destruct a; discriminate E.
    + destruct a as [|z a]; [injection E as <- <-; apply Forall_inv in F; congruence|]. injection E as <- E. destruct (IHg (Forall_inv_tail F) a E) as (-> & ? & ?). auto.
  - destruct a as [|z a].
    + injection E as <- <-. left. exists w. auto.
    + injection E as <- E. destruct (IH a E) as [(b0 & -> & ->)|(-> & ? & ?)]; [left; exists b0; auto|right; auto].
Qed.
Lemma pl_less k k' p r s x s' w g r' : (k' <= k)%nat -> pl k p r s x s' w g r' -> pl k' p r s x s' w g r'.
Proof. intros L []. constructor; auto. eapply H_less; eauto. Qed.
Lemma pl_cache n k p r s x s' w g r' : pl k p r s x s' w g r' -> pc (cache n) (fun _ s'' => pl (Nat.max n k) p r s x s'' w g r') s'.
Proof.
  intros P. eapply pc_conseq; [apply (L_cache _ _ n _ _ _ _ (p_H _ _ _ _ _ _ _ _ _ P))|]. cbn beta. intros _ s'' (H1 & S1). destruct P. constructor; auto. eapply same_trans; eauto.
Qed.
Lemma no_filler_end a c : filler c = false -> no_filler (rev (a ++ [c])).
Proof. intros E. rewrite rev_app_distr. exact E. Qed.

(** One character. *)
Definition unpend (p : plain_st) : plain_st :=
  if pl_leading_blanks p then
    Mk_plain (fold_breaks (pl_string p) (pl_leading_break p) (pl_trailing_breaks p)) [] [] (pl_whitespaces p) false (pl_end p)
  else if negb (is_empty (pl_whitespaces p)) then
    Mk_plain (pl_string p ++ pl_whitespaces p) (pl_leading_break p) (pl_trailing_breaks p) [] false (pl_end p)
  else p.
Lemma unpend_pl k p r s x s' w g r' : pl k p r s x s' w g r' ->
  pl_string (unpend x) = pl_string x ++ folded g /\ pl_leading_break (unpend x) = [] /\ pl_trailing_breaks (unpend x) = [] /\ pl_whitespaces (unpend x) = [] /\ pl_leading_blanks (unpend x) = false.
Proof.
  intros P. destruct (p_g _ _ _ _ _ _ _ _ _ P) as [F G]. unfold unpend. destruct (pl_leading_blanks x) eqn:E.
  - destruct G as (G1 & c & G2 & G3). cbn. rewrite G1, G2. split; [apply fold_gap, G3|auto].
  - destruct G as (G1 & G2 & G3 & G4). rewrite G1. destruct g as [|c g]; cbn [is_empty negb]; cbn.
    + unfold folded. cbn. rewrite app_nil_r. auto.
    + split; [rewrite (folded_blanks _ G4); reflexivity|auto].
Qed.
Lemma pl_char k p r s x s' w g c r' : pl k p r s x s' w g (c :: r') -> filler c = false -> (g <> [] -> c <> 35) -> (c = 58 -> solid r') -> (flow_level s <> 0 -> flow_indicator c = false) ->
  pc (read_char (pl_string (unpend x))) (fun y s'' => forall e, e = pos s'' ->
    pl (k - 1) p r s (Mk_plain y (pl_leading_break (unpend x)) (pl_trailing_breaks (unpend x)) (pl_whitespaces (unpend x)) (pl_leading_blanks (unpend x)) e) s'' (w ++ g ++ [c]) [] r') s'.
Proof.
  intros P Hc Hh Hs Hf. destruct (unpend_pl _ _ _ _ _ _ _ _ _ P) as (U1 & U2 & U3 & U4 & U5). rewrite U1, U2, U3, U4, U5.
  assert (Nb : breaks_line c = false) by (unfold filler in Hc; apply orb_false_elim in Hc; tauto).
  eapply pc_conseq; [apply (L_read _ _ _ _ _ _ (pl_string x ++ folded g) (p_H _ _ _ _ _ _ _ _ _ P) Nb)|]. cbn beta.
  intros y s2 (c' & r2 & [= <- <-] & _ & -> & H2 & S2) e ->. destruct (p_g _ _ _ _ _ _ _ _ _ P) as [F _]. rewrite <- !app_assoc in H2. constructor; cbn.
  - rewrite (p_r _ _ _ _ _ _ _ _ _ P), <- !app_assoc. reflexivity.
  - rewrite app_nil_r. exact H2.
  - eapply same_trans; [apply (p_same _ _ _ _ _ _ _ _ _ P)|exact S2].
  - assert (X : extn Plain (w ++ g) (pl_string x ++ folded g)).
    { destruct g as [|d g]; [cbn; rewrite !app_nil_r; apply ext_extn, (p_ext _ _ _ _ _ _ _ _ _ P)|]. apply extn_gap; [apply (p_ext _ _ _ _ _ _ _ _ _ P)|discriminate|exact F]. }
    rewrite app_assoc. apply ext_char; [exact X|exact Hc|discriminate|discriminate].
  - apply (h_pos _ _ _ _ _ _ H2).
  - split; [constructor|auto].
  - destruct w as [|d w]; [rewrite (p_nil _ _ _ _ _ _ _ _ _ P eq_refl); exact Hc|]. exact (p_first _ _ _ _ _ _ _ _ _ P).
  - rewrite app_assoc. apply no_filler_end, Hc.
  - intros E. apply app_eq_nil in E. destruct E as [_ E]. apply app_eq_nil in E. destruct E; discriminate.
  - intros a b E. destruct (split_snoc _ _ _ _ _ _ E F eq_refl) as [(b0 & E1 & ->)|(_ & E1 & ->)]; [|apply Hs; congruence].
    pose proof (p_colon _ _ _ _ _ _ _ _ _ P a b0 E1) as X. rewrite <- !app_assoc. exact X.
  - intros a x0 b E. assert (Ea : a ++ x0 :: 35 :: b = (a ++ [x0]) ++ 35 :: b) by (rewrite <- app_assoc; reflexivity). rewrite Ea in E. destruct (split_snoc _ _ _ _ _ _ E F eq_refl) as [(b0 & E1 & ->)|(E1 & E2 & ->)].
    + rewrite <- app_assoc in E1. apply (p_hash _ _ _ _ _ _ _ _ _ P a x0 b0 E1).
    + destruct g as [|y g]; [|exfalso; apply Hh; [discriminate|congruence]]. rewrite app_nil_r in E1. pose proof (p_last _ _ _ _ _ _ _ _ _ P) as L. rewrite <- E1, rev_app_distr in L. exact L.
  - intros Fl. apply Forall_app. split; [apply (p_flow _ _ _ _ _ _ _ _ _ P Fl)|]. apply Forall_app. split; [|repeat constructor; apply Hf, Fl].
    eapply Forall_impl; [|exact F]. cbv beta. intros y Y. unfold filler, blank, breaks_line in Y. unfold flow_indicator. cbn [existsb]. lia.
Qed.
Lemma stop_facts k p r s s' c : H k p (c :: r) s' -> (2 <= k)%nat -> same s s' -> filler c = false -> plain_stop s' = false -> (c = 58 -> solid r) /\ (flow_level s <> 0 -> flow_indicator c = false).
Proof.
  intros Hh Hk S Hc E. unfold plain_stop in E. rewrite (H_get _ _ _ _ _ _ 0 Hh), (H_get _ _ _ _ _ _ 1 Hh) in E by lia. apply orb_false_elim in E. destruct E as [E1 E2].
  assert (F : flow_level s' = flow_level s) by (unfold same, frame in S; congruence). rewrite F in E2. split.
  - intros ->. change (nth_error (58 :: r) 1) with (nth_error r 0) in E1. cbn [nth_error chk N.eqb Pos.eqb andb] in E1. destruct r as [|d r]; [discriminate E1|]. cbn [nth_error] in E1. rewrite filler_is in E1. split; [discriminate|exact E1].
  - intros Fl. apply N.eqb_neq in Fl. rewrite Fl in E2. cbn [negb andb nth_error chk] in E2. unfold flow_indicator. cbn [existsb]. rewrite orb_false_r. rewrite <- !orb_assoc in E2. exact E2.
Qed.
Lemma stop_text k p r s s' (g : str) : H k p r s' -> (2 <= k)%nat -> same s s' -> Forall (fun c => filler c = true) g -> (is_blankz (bget 0 s') || plain_stop s') = true ->
  plain_stops (negb (flow_level s =? 0)) (g ++ r).
Proof.
  intros Hh Hk S Fg E. destruct g as [|x g]; [|left; exact (Forall_inv Fg)]. cbn [app]. assert (F : flow_level s' = flow_level s) by (unfold same, frame in S; congruence).
  unfold plain_stop in E. rewrite (H_get _ _ _ _ _ _ 0 Hh), (H_get _ _ _ _ _ _ 1 Hh), F in E by lia. destruct r as [|c r]; [left; exact Logic.I|]. change (nth_error (c :: r) 1) with (nth_error r 0) in E. cbn [nth_error chk] in E.
  apply orb_prop in E. destruct E as [E|E]; [left; rewrite filler_is in E; exact E|]. right. apply orb_prop in E. destruct E as [E|E]; apply andb_prop in E; destruct E as [E1 E2].
  - left. apply N.eqb_eq in E1. subst c. exists r. split; [reflexivity|]. intros [N1 N2]. destruct r as [|d r]; [contradiction|]. cbn [nth_error] in E2. rewrite filler_is in E2. cbn in N2. congruence.
  - right. split; [exact E1|]. cbn [ends]. unfold flow_indicator. cbn [existsb]. rewrite orb_false_r, !orb_assoc. exact E2.
Qed.

Lemma L_plain_text m k p r s x s1 w g r1 : pl k p r s x s1 w g r1 -> (2 <= k)%nat -> (g <> [] -> hd 0 r1 <> 35) ->
  pc (plain_text m x) (fun x' s' => exists w' g' r', pl 2 p r s x' s' w' g' r' /\ plain_stops (negb (flow_level s =? 0)) (g' ++ r') /\ ((is_blankz (bget 0 s1) || plain_stop s1) = false -> w' <> []) /\ (w <> [] -> w' <> [])) s1.
Proof.
  intros P Hk Hh. unfold plain_text.
  apply (pc_loop (fun x' s' => exists w' g' r', pl 2 p r s x' s' w' g' r' /\ (g' <> [] -> hd 0 r' <> 35) /\ (s' = s1 \/ w' <> []) /\ (w <> [] -> w' <> []))).
  2:{ exists w, g, r1. split; [eapply pl_less; eauto|]. auto. }
  clear g r1 P Hh. intros y s2 (w' & g' & r' & P2 & D0 & D1 & D2). apply pc_bind, pc_get. pose proof (p_H _ _ _ _ _ _ _ _ _ P2) as H2.
  assert (Hx : (is_blankz (bget 0 s2) || plain_stop s2) = true ->
    exists w'0 g'0 r'0, pl 2 p r s y s2 w'0 g'0 r'0 /\ plain_stops (negb (flow_level s =? 0)) (g'0 ++ r'0) /\ ((is_blankz (bget 0 s1) || plain_stop s1) = false -> w'0 <> []) /\ (w <> [] -> w'0 <> [])).
  { intros E. exists w', g', r'. split; [exact P2|]. split; [apply (stop_text _ _ _ _ _ _ H2 (le_n _) (p_same _ _ _ _ _ _ _ _ _ P2) (proj1 (p_g _ _ _ _ _ _ _ _ _ P2)) E)|]. split; [|exact D2]. destruct D1 as [->|D1]; [congruence|auto]. }
  destruct (is_blankz (bget 0 s2)) eqn:E0; [apply pc_ret, Hx; reflexivity|]. destruct (plain_bad_colon s2); [apply pc_error|].
  destruct (plain_stop s2) eqn:E1; [apply pc_ret, Hx; reflexivity|]. clear Hx. cbv zeta. fold (unpend y).
  destruct (bget 0 s2) as [c|] eqn:Eb; [|discriminate]. destruct (H_head _ _ _ _ _ _ _ H2 Eb) as [r2 ->]. rewrite filler_is in E0.
  destruct (stop_facts _ _ _ _ _ _ H2 (le_n _) (p_same _ _ _ _ _ _ _ _ _ P2) E0 E1) as [F1 F2].
  eapply pc_seq; [apply (pl_char _ _ _ _ _ _ _ _ _ _ P2 E0 D0 F1 F2)|]. cbn beta. intros z s3 P3. apply pc_bind, pc_gets. specialize (P3 (pos s3) eq_refl).
  eapply pc_seq; [apply (pl_cache 2 _ _ _ _ _ _ _ _ _ P3)|]. cbn beta. intros _ s4 P4. apply pc_ret. exists (w' ++ g' ++ [c]), [], r2.
  assert (N : w' ++ g' ++ [c] <> []) by (intros E; apply app_eq_nil in E; destruct E as [_ E]; apply app_eq_nil in E; destruct E; discriminate).
  split; [eapply pl_less; [|exact P4]; lia|]. split; [contradiction|auto].
Qed.

(** Blanks and line breaks. *)
Lemma L_plain_blanks m ind k p r s x s1 w g r1 : pl k p r s x s1 w g r1 -> (1 <= k)%nat -> w <> [] ->
  pc (plain_blanks m ind x) (fun x' s' => exists g' r', pl 1 p r s x' s' w g' r') s1.
Proof.
  intros P Hk Nw. unfold plain_blanks. apply (pc_loop (fun x' s' => exists g' r', pl 1 p r s x' s' w g' r')).
  2:{ exists g, r1. eapply pl_less; eauto. }
  clear g r1 P x s1. intros x s1 (g & r1 & P). apply pc_bind, pc_get. pose proof (p_H _ _ _ _ _ _ _ _ _ P) as H1. destruct (p_g _ _ _ _ _ _ _ _ _ P) as [F G].
  assert (Nx : forall d r', r1 = d ++ r' -> forall (x' : plain_st) k' s', pl_string x' = pl_string x -> pl_end x' = pl_end x -> Forall (fun c => filler c = true) d ->
    gathered false (g ++ d) (pl_leading_break x') (pl_trailing_breaks x') (pl_whitespaces x') (pl_leading_blanks x') -> H k' (p ++ w ++ g ++ d) r' s' -> (1 <= k')%nat -> same s1 s' ->
    exists g' r', pl 1 p r s x' s' w g' r').
  { intros d r' -> x' k' s' X1 X2 X3 X4 X5 X6 X7. exists (g ++ d), r'. destruct P. constructor; auto.
    - rewrite p_r0, <- !app_assoc. reflexivity.
    - eapply H_less; [|exact X5]; lia.
    - eapply same_trans; eauto.
    - rewrite X1. assumption.
    - rewrite X2. assumption.
    - intros E. contradiction.
    - intros a b E. pose proof (p_colon0 a b E) as X. rewrite <- app_assoc. exact X. }
  destruct (is_blank (bget 0 s1)) eqn:E1.
  - destruct (c_blank _ E1) as (c & Ec & Bc & Nc). destruct (H_head _ _ _ _ _ _ _ H1 Ec) as [r2 ->]. destruct (_ && is_tab (bget 0 s1)); [apply pc_error|].
    assert (Fc : Forall (fun c => filler c = true) [c]) by (apply blank_filler; repeat constructor; exact Bc).
    assert (Fg : Forall (fun c => filler c = true) (g ++ [c])) by (apply Forall_app; split; assumption).
    destruct (pl_leading_blanks x) eqn:El; cbn [negb].
    + eapply pc_seq; [apply (L_skip _ _ _ _ _ _ H1 Nc)|]. cbn beta. intros _ s2 (c' & r' & [= <- <-] & _ & H2 & S2).
      eapply pc_seq; [apply (L_cache _ _ 1 _ _ _ _ H2)|]. cbn beta. intros _ s3 (H3 & S3). apply pc_ret. rewrite <- !app_assoc in H3.
      eapply (Nx [c] r2 eq_refl x _ s3); [reflexivity|reflexivity|exact Fc| |exact H3|lia|eapply same_trans; eauto].
      split; [exact Fg|]. rewrite El. rewrite (breaks_snoc_blank p g c Bc). exact G.
    + destruct G as (G1 & G2 & G3 & Fb).
      eapply pc_seq; [apply (L_read _ _ _ _ _ _ (pl_whitespaces x) H1 Nc)|]. cbn beta. intros w' s2 (c' & r' & [= <- <-] & _ & -> & H2 & S2).
      eapply pc_seq; [apply (L_cache _ _ 1 _ _ _ _ H2)|]. cbn beta. intros _ s3 (H3 & S3). apply pc_ret. rewrite <- !app_assoc in H3.
      eapply (Nx [c] r2 eq_refl _ _ s3); [reflexivity|reflexivity|exact Fc| |exact H3|lia|eapply same_trans; eauto]. cbn.
      split; [exact Fg|]. rewrite G1. split; [reflexivity|]. split; [exact G2|]. split; [exact G3|]. apply Forall_app. split; [exact Fb|repeat constructor; exact Bc].
  - destruct (is_break (bget 0 s1)) eqn:E2; [|apply pc_ret; exists g, r1; exact P].
    eapply pc_seq; [apply (L_cache _ _ 2 _ _ _ _ H1)|]. cbn beta. intros _ s2 (H2 & S2). pose proof (is_break_head _ _ _ _ _ _ H1 E2) as Hb.
    assert (Go : forall b r', r1 = b ++ r' -> In b break_texts -> breaks_of (g ++ b) = breaks_of g ++ breaks_of b).
    { intros b r' -> B. apply (breaks_app (p ++ w)). rewrite <- app_assoc. intros Hc. pose proof (h_cr _ _ _ _ _ _ H1 Hc) as X. destruct b as [|c b]; [cbn; discriminate|exact X]. }
    destruct (pl_leading_blanks x) eqn:El.
    + eapply pc_seq; [apply (L_read_break _ _ _ _ _ _ (pl_trailing_breaks x) H2); [lia|exact Hb]|]. cbn beta. intros t2 s3 (b & r3 & -> & B1 & B2 & -> & H3 & S3). specialize (Go b r3 eq_refl B1).
      eapply pc_seq; [apply (L_cache _ _ 1 _ _ _ _ H3)|]. cbn beta. intros _ s4 (H4 & S4). apply pc_ret. rewrite <- !app_assoc in H4.
      eapply (Nx b r3 eq_refl _ _ s4); [reflexivity|reflexivity|apply (break_filler _ B1)| |exact H4|lia|eapply same_trans; [exact S2|]; eapply same_trans; eauto]. cbn.
      split; [apply Forall_app; split; [exact F|apply (break_filler _ B1)]|]. destruct G as (G1 & c & G2 & G3). split; [exact G1|]. exists c. split; [exact G2|]. rewrite Go, G3. reflexivity.
    + destruct G as (G1 & G2 & G3 & Fb).
      eapply pc_seq; [apply (L_read_break _ _ _ _ _ _ (pl_leading_break x) H2); [lia|exact Hb]|]. cbn beta. intros t2 s3 (b & r3 & -> & B1 & B2 & -> & H3 & S3). specialize (Go b r3 eq_refl B1).
      eapply pc_seq; [apply (L_cache _ _ 1 _ _ _ _ H3)|]. cbn beta. intros _ s4 (H4 & S4). apply pc_ret. rewrite <- !app_assoc in H4.
      eapply (Nx b r3 eq_refl _ _ s4); [reflexivity|reflexivity|apply (break_filler _ B1)| |exact H4|lia|eapply same_trans; [exact S2|]; eapply same_trans; eauto]. cbn.
      split; [apply Forall_app; split; [exact F|apply (break_filler _ B1)]|]. split; [reflexivity|]. rewrite G2, Go, (breaks_blanks _ Fb), G3. destruct (breaks_break _ B1) as [c Ec]. exists c. cbn [app]. rewrite Ec. auto.
Qed.

(** A plain scalar can start here. *)
Definition go (s : sst) : Prop := at_document_indicator s = false /\ chk cHASH (bget 0 s) = false /\ (is_blankz (bget 0 s) || plain_stop s) = false.
Lemma go_same k k' p r s s' : H k p r s -> H k' p r s' -> (4 <= k)%nat -> (4 <= k')%nat -> same s s' -> go s -> go s'.
Proof.
  intros H1 H2 L1 L2 S G.
  assert (E : forall i, (i < 4)%nat -> bget i s' = bget i s) by (intros i Hi; rewrite (H_get _ _ _ _ _ _ _ H1), (H_get _ _ _ _ _ _ _ H2) by lia; reflexivity).
  assert (F : flow_level s' = flow_level s) by (unfold same, frame in S; congruence).
  assert (Q : pos s' = pos s) by (rewrite (h_pos _ _ _ _ _ _ H1), (h_pos _ _ _ _ _ _ H2); reflexivity).
  unfold go, at_document_indicator, plain_stop in *. rewrite F, Q, !E by lia. exact G.
Qed.
Lemma L_plain k p r s : H k p r s -> (4 <= k)%nat -> go s -> plain_starts (negb (flow_level s =? 0)) r -> pc scan_plain_scalar (scanned rest T p r s) s.
Proof.
  intros Hh Hk Hg Hst. unfold scan_plain_scalar. apply pc_bind, pc_get. cbv zeta. apply pc_bind.
  apply (pc_loop (fun x s' => exists w g r', pl 0 p r s x s' w g r' /\ (w = [] -> r' = r) /\ (w <> [] -> plain_stops (negb (flow_level s =? 0)) (g ++ r')))).
  2:{ exists [], [], r. split; [|split; [auto|contradiction]]. constructor; cbn; auto; [rewrite app_nil_r; eapply H_less; [|exact Hh]; lia|reflexivity|apply ext_nil|rewrite app_nil_r; apply (h_pos _ _ _ _ _ _ Hh)| | |].
    - split; [constructor|auto].
    - intros a b E. destruct a; discriminate E.
    - intros a c b E. destruct a; discriminate E. }
  intros x s1 (w & g & r1 & P1 & N1 & N2).
  eapply pc_seq; [apply (pl_cache 4 _ _ _ _ _ _ _ _ _ P1)|]. cbn beta. intros _ s2 P2. apply pc_bind, pc_get.
  assert (G2 : w = [] -> go s2).
  { intros E. pose proof (p_H _ _ _ _ _ _ _ _ _ P2) as H2. rewrite (p_nil _ _ _ _ _ _ _ _ _ P2 E), (N1 E), E, app_nil_r in H2. cbn [app] in H2.
    eapply (go_same _ _ _ _ _ _ Hh H2); [lia|lia|apply (p_same _ _ _ _ _ _ _ _ _ P2)|exact Hg]. }
  assert (Fin : forall x s' w g r', pl 0 p r s x s' w g r' -> w <> [] -> plain_stops (negb (flow_level s =? 0)) (g ++ r') ->
    pc (when (pl_leading_blanks x) (modify (set_simple_key_allowed true));; ret (Mk_token (TScalar (pl_string x) SPlain) (pos s) (pl_end x))) (scanned rest T p r s) s').
  { pose proof (h_pos _ _ _ _ _ _ Hh) as Ps. clear - Ps Hst. intros x s' w g r' P N St. apply pc_bind. eapply pc_conseq with (Q := fun _ s'' => pl 0 p r s x s'' w g r').
    { destruct (pl_leading_blanks x); cbn [when]; [apply pc_modify|apply pc_ret, P]. destruct P. constructor; auto. destruct p_H0 as [A1 A2 A3 A4 A5].
      constructor; [exact A1|destruct A2; constructor; assumption|exact A3|exact A4|left; lia]. }
    cbn beta. intros _ s'' P'. apply pc_ret. destruct P'. exists w, g, r'. cbn [t_data t_start t_end]. split; [exact p_r0|]. split; [exact N|].
    split; [constructor; auto; specialize (p_ext0 [] [] (R_nil _)); rewrite !app_nil_r in p_ext0; exact p_ext0|].
    split; [|split; [exact p_end0|]].
    - exact Ps.
    - split; [|split; [exact p_H0|split; [exact p_same0|]]]; [|constructor; auto; [rewrite <- p_r0; exact Hst|intros Fl; apply p_flow0; intros Z; rewrite Z in Fl; discriminate]]. pose proof (skips_filler (p ++ w) (g ++ r') [] g r' (skips_refl _ _) (proj1 p_g0)) as X. exact X. }
  destruct (at_document_indicator s2) eqn:E1.
  { apply pc_ret. apply (Fin x s2 w g r1); [eapply pl_less; [|exact P2]; lia| |]; [intros E; destruct (G2 E) as [G _]; congruence|]. destruct w as [|c w]; [destruct (G2 eq_refl) as [G _]; congruence|apply N2; discriminate]. }
  destruct (chk cHASH (bget 0 s2)) eqn:E2.
  { apply pc_ret. apply (Fin x s2 w g r1); [eapply pl_less; [|exact P2]; lia| |]; [intros E; destruct (G2 E) as (_ & G & _); congruence|]. destruct w as [|c w]; [destruct (G2 eq_refl) as (_ & G & _); congruence|apply N2; discriminate]. }
  assert (Hn : hd 0 r1 <> 35).
  { rewrite (H_get _ _ _ _ _ _ _ (p_H _ _ _ _ _ _ _ _ _ P2)) in E2 by lia. destruct r1 as [|c r1]; [cbn; lia|]. cbn in E2 |- *. lia. }
  eapply pc_seq; [apply (L_plain_text _ _ _ _ _ _ _ _ _ _ P2); [lia|auto]|]. cbn beta. intros x3 s3 (w3 & g3 & r3 & P3 & St3 & D1 & D2). apply pc_bind, pc_get.
  assert (N3 : w3 <> []) by (destruct w as [|c w]; [apply D1, G2; reflexivity|apply D2; discriminate]).
  destruct (negb (is_blank (bget 0 s3) || is_break (bget 0 s3))); [apply pc_ret; apply (Fin x3 s3 w3 g3 r3); [eapply pl_less; [|exact P3]; lia|exact N3|exact St3]|].
  eapply pc_seq; [apply (pl_cache 1 _ _ _ _ _ _ _ _ _ P3)|]. cbn beta. intros _ s4 P4.
  eapply pc_seq; [apply (L_plain_blanks _ _ _ _ _ _ _ _ _ _ _ P4); [lia|exact N3]|]. cbn beta. intros x5 s5 (g5 & r5 & P5). apply pc_bind, pc_get.
  assert (St5 : plain_stops (negb (flow_level s =? 0)) (g5 ++ r5)).
  { assert (Eq : w3 ++ g5 ++ r5 = w3 ++ g3 ++ r3) by (rewrite <- (p_r _ _ _ _ _ _ _ _ _ P3); symmetry; apply (p_r _ _ _ _ _ _ _ _ _ P5)). apply app_inv_head in Eq. rewrite Eq. exact St3. }
  destruct (_ && _); apply pc_ret.
  - apply (Fin x5 s5 w3 g5 r5); [eapply pl_less; [|exact P5]; lia|exact N3|exact St5].
  - exists w3, g5, r5. split; [eapply pl_less; [|exact P5]; lia|]. split; [intros E; contradiction|auto].
Qed.
End text.
