(** LexQuoted.v -- the text of quoted scalars. *)
From Coq Require Import Lia ZifyBool ZifyNat ZifyN Bool.
From Verif Require Import Base Utf Chars State Reader Scanner Wp ReaderFacts ReadFacts ScanFacts Spec_Lexical LexBase LexScan LexNames.
Open Scope N_scope.

(** ** The line breaks of a text *)
Lemma breaks_of_app n : forall a b, (length a <= n)%nat -> (forall a', a = a' ++ [13] -> hd 0 b <> 10) -> breaks_of (a ++ b) = breaks_of a ++ breaks_of b.
Proof.
  induction n as [|n IH]; intros a b L Hc; [destruct a; [reflexivity|cbn in L; lia]|].
  destruct a as [|c a]; [reflexivity|]. cbn [length] in L.
  assert (Ia : breaks_of (a ++ b) = breaks_of a ++ breaks_of b) by (apply IH; [lia|]; intros a' ->; apply (Hc (c :: a')); reflexivity).
  cbn [app breaks_of]. rewrite Ia. destruct (N.eqb_spec c 13) as [->|_].
  - cbn [app]. f_equal. destruct a as [|d a].
    + cbn [app]. destruct b as [|d b]; [reflexivity|]. specialize (Hc [] eq_refl). cbn [hd] in Hc. destruct (N.eqb_spec d 10); [contradiction|reflexivity].
    + cbn [app]. cbn [length] in L. destruct (d =? 10) eqn:Ed; [|reflexivity]. apply IH; [lia|]. intros a' ->. apply (Hc (13 :: d :: a')); reflexivity.
  - destruct ((c =? 10) || (c =? 133)); [reflexivity|]. destruct ((c =? 8232) || (c =? 8233)); reflexivity.
Qed.
Lemma mk_cr p : snd (mk (p ++ [13])) = true.
Proof. rewrite mk_app. cbn [fold_left]. destruct (mk p) as [m cr]. unfold step_mark. cbn. rewrite andb_false_r. reflexivity. Qed.
Lemma breaks_app p a b : (snd (mk (p ++ a)) = true -> hd 0 b <> 10) -> breaks_of (a ++ b) = breaks_of a ++ breaks_of b.
Proof. intros Hc. apply (breaks_of_app (length a)); [apply le_n|]. intros a' ->. apply Hc. rewrite app_assoc. apply mk_cr. Qed.
Lemma breaks_blanks g : Forall (fun c => blank c = true) g -> breaks_of g = [].
Proof.
  induction 1 as [|c g Hc _ IH]; [reflexivity|]. cbn [breaks_of]. rewrite IH. unfold blank in Hc. 
  assert (E : c = 32 \/ c = 9) by lia. destruct E as [-> | ->]; reflexivity.
Qed.
Lemma breaks_break b : In b break_texts -> exists c, breaks_of b = [c].
Proof. cbn. intros [<-|[<-|[<-|[<-|[<-|[<-|[]]]]]]]; eexists; reflexivity. Qed.
Lemma breaks_snoc_blank (p a : str) c : blank c = true -> breaks_of (a ++ [c]) = breaks_of a.
Proof.
  intros Hc. rewrite (breaks_app p); [|intros _; unfold blank in Hc; cbn; lia]. rewrite (breaks_blanks [c]) by (repeat constructor; exact Hc). apply app_nil_r.
Qed.

(** ** Continuations *)
Definition ext (st : flow_style) (w0 v0 : str) : Prop := forall w v, reads st w v -> reads st (w0 ++ w) (v0 ++ v).
Definition extn (st : flow_style) (w0 v0 : str) : Prop := forall w v, no_filler w -> reads st w v -> reads st (w0 ++ w) (v0 ++ v).
Definition upto (st : flow_style) (r0 w0 v0 : str) : Prop := ext st w0 v0 \/ extn st w0 v0 /\ no_filler r0.
Lemma ext_extn st w v : ext st w v -> extn st w v. Proof. intros X w' v' _. apply X. Qed.
Lemma upto_ext st r0 w v : upto st r0 w v -> extn st w v. Proof. intros [X|[X _]]; [apply ext_extn, X|exact X]. Qed.
Lemma upto_end st r0 w v : upto st r0 w v -> reads st w v.
Proof. intros X. apply upto_ext in X. specialize (X [] [] Logic.I (R_nil _)). rewrite !app_nil_r in X. exact X. Qed.
Lemma ext_nil st : ext st [] []. Proof. intros w v R. exact R. Qed.
Lemma ext_char st w v c : extn st w v -> filler c = false -> (st = Single -> c <> 39) -> (st = Double -> c <> 34 /\ c <> 92) -> ext st (w ++ [c]) (v ++ [c]).
Proof. intros X F A B w' v' R. rewrite <- !app_assoc. apply X; [exact F|]. cbn [app]. constructor; assumption. Qed.
Lemma ext_quote w v : extn Single w v -> ext Single (w ++ [39; 39]) (v ++ [39]).
Proof. intros X w' v' R. rewrite <- !app_assoc. apply X; [reflexivity|]. cbn [app]. apply R_quote; [reflexivity|exact R]. Qed.
Lemma ext_escape w v e c : extn Double w v -> escape e c -> ext Double (w ++ 92 :: e) (v ++ [c]).
Proof. intros X E w' v' R. rewrite <- !app_assoc. apply X; [reflexivity|]. cbn [app]. apply R_escape; [reflexivity|exact E|exact R]. Qed.
Lemma extn_gap st w v g : ext st w v -> g <> [] -> Forall (fun c => filler c = true) g -> extn st (w ++ g) (v ++ folded g).
Proof. intros X N F w' v' Nw R. rewrite <- !app_assoc. apply X. apply R_gap; assumption. Qed.
Lemma extn_joined w v b g : extn Double w v -> In b break_texts -> Forall (fun c => filler c = true) g ->
  extn Double (w ++ 92 :: b ++ g) (v ++ tl (breaks_of (b ++ g))).
Proof.
  intros X B F w' v' Nw R. rewrite <- !app_assoc. apply X; [reflexivity|]. destruct b as [|c b]; [destruct (break_filler _ B) as [_ Y]; contradiction|].
  pose proof (R_joined Double c (b ++ g) w' v' eq_refl) as Y. cbn [app] in Y |- *. apply Y; [| |exact Nw|exact R].
  - cbn in B. destruct B as [B|[B|[B|[B|[B|[B|[]]]]]]]; injection B; intros; subst; reflexivity.
  - apply Forall_app. split; [|exact F]. exact (Forall_inv_tail (proj1 (break_filler _ B))).
Qed.

Section text.
Variable rest : list byte.
Variable T : str.
Notation H := (H rest T).

(** Characters that are not line breaks. *)
Lemma L_skips w : forall k p r s, H k p (w ++ r) s -> Forall (fun c => breaks_line c = false) w ->
  pc (skip_chars (length w)) (fun _ s' => H (k - length w) (p ++ w) r s' /\ same s s') s.
Proof.
  induction w as [|c w IH]; intros k p r s Hh F; cbn [length skip_chars].
  - apply pc_ret. rewrite app_nil_r. split; [eapply H_less; [|exact Hh]; lia|reflexivity].
  - eapply pc_seq; [apply (L_skip _ _ _ _ _ _ Hh (Forall_inv F))|]. cbn beta. intros _ s1 (c' & r' & E & _ & H1 & S1). cbn [app] in E. injection E as <- <-.
    eapply pc_conseq; [apply (IH _ _ _ _ H1 (Forall_inv_tail F))|]. cbn beta. intros _ s2 (H2 & S2). rewrite <- app_assoc in H2.
    split; [eapply H_less; [|exact H2]; lia|eapply same_trans; eauto].
Qed.

(** ** Escapes *)
Lemma code_simple c ch : escape_code c = Some (inl ch) -> In (c, ch) simple_escapes /\ breaks_line c = false.
Proof.
  unfold escape_code. intros E.
  repeat match type of E with (if ?x then _ else _) = _ => let Z := fresh in destruct x eqn:Z; [first [discriminate E|injection E as <-; 
    try (apply orb_prop in Z; destruct Z as [Z|Z]); apply N.eqb_eq in Z; subst c; (split; [cbn; tauto|reflexivity])]|clear Z] end. discriminate E.
Qed.
Lemma code_hex c n : escape_code c = Some (inr n) -> In (c, n) [(120, 2%nat); (117, 4%nat); (85, 8%nat)] /\ breaks_line c = false.
Proof.
  unfold escape_code. intros E.
  repeat match type of E with (if ?x then _ else _) = _ => let Z := fresh in destruct x eqn:Z; [first [discriminate E|injection E as <-; 
    apply N.eqb_eq in Z; subst c; (split; [cbn; tauto|reflexivity])]|clear Z] end. discriminate E.
Qed.
Lemma hex_digits n : forall l w0 acc v, hex w0 acc -> hex_value n l acc = Some v ->
  exists w l', l = w ++ l' /\ length w = n /\ hex (w0 ++ w) v /\ Forall (fun c => breaks_line c = false) w.
Proof.
  induction n as [|n IH]; intros l w0 acc v X E; cbn [hex_value] in E.
  - injection E as <-. exists [], l. rewrite app_nil_r. split; [reflexivity|]. split; [reflexivity|]. split; [exact X|constructor].
  - destruct l as [|c l]; [discriminate|]. destruct (is_hex_c c) eqn:Hc; [|discriminate].
    assert (D : hex_digit c = Some (hex_val c)) by (rewrite hex_is; unfold as_hex; rewrite Hc; reflexivity).
    destruct (IH l (w0 ++ [c]) _ v (H_snoc _ _ _ _ X D) E) as (w & l' & -> & <- & A & B). exists (c :: w), l'. rewrite <- app_assoc in A.
    split; [reflexivity|]. split; [reflexivity|]. split; [exact A|]. constructor; [apply (hex_nobreak _ _ D)|exact B].
Qed.
Lemma char_from v ch : char_from_u32 v = Some ch -> ch = v /\ (v < 55296 \/ 57344 <= v < 1114112).
Proof. unfold char_from_u32. destruct (is_scalar v) eqn:E; [|discriminate]. intros [= <-]. split; [reflexivity|]. unfold is_scalar in E. lia. Qed.
Lemma L_escape m x w0 k p r s : H k p (92 :: r) s -> (2 <= k)%nat -> extn Double w0 x ->
  pc (scan_escape m x) (fun x' s' => exists e r', r = e ++ r' /\ ext Double (w0 ++ 92 :: e) x' /\ H 0 (p ++ 92 :: e) r' s' /\ same s s') s.
Proof.
  intros Hh Hk X. unfold scan_escape. apply pc_bind, pc_get. rewrite (H_get _ _ _ _ _ _ _ Hh) by lia. cbn [nth_error]. destruct r as [|c r]; [apply pc_panics|].
  destruct (escape_code c) as [[ch|n]|] eqn:E; [| |apply pc_error].
  - destruct (code_simple _ _ E) as [E1 E2].
    eapply pc_seq; [apply (L_skip _ _ _ _ _ _ Hh eq_refl)|]. cbn beta. intros _ s2 (c' & r' & [= <- <-] & _ & H2 & S2).
    eapply pc_seq; [apply (L_skip _ _ _ _ _ _ H2 E2)|]. cbn beta. intros _ s3 (c' & r' & [= <- <-] & _ & H3 & S3). apply pc_ret. rewrite <- app_assoc in H3.
    exists [c], r. split; [reflexivity|]. split; [apply ext_escape; [exact X|apply E_simple, E1]|]. split; [eapply H_less; [|exact H3]; lia|eapply same_trans; eauto].
  - destruct (code_hex _ _ E) as [E1 E2].
    eapply pc_seq; [apply (L_skip _ _ _ _ _ _ Hh eq_refl)|]. cbn beta. intros _ s2 (c' & r' & [= <- <-] & _ & H2 & S2).
    eapply pc_seq; [apply (L_skip _ _ _ _ _ _ H2 E2)|]. cbn beta. intros _ s3 (c' & r' & [= <- <-] & _ & H3 & S3). rewrite <- app_assoc in H3.
    eapply pc_seq; [apply (L_cache _ _ n _ _ _ _ H3)|]. cbn beta. intros _ s4 (H4 & S4). apply pc_bind, pc_get.
    destruct (hex_value n (buffer s4) 0) as [v|] eqn:Ev; [|apply pc_error]. destruct (char_from_u32 v) as [ch|] eqn:Ec; [|apply pc_error].
    destruct (char_from _ _ Ec) as [-> Rv]. destruct (hex_digits n _ [] 0 v H_nil Ev) as (w & l' & El & <- & Hw & Fw). cbn [app] in Hw.
    destruct (text_buffer _ _ _ (h_text _ _ _ _ _ _ H4)) as [y Ey]. rewrite El in Ey. rewrite <- app_assoc in Ey. rewrite Ey in *.
    eapply pc_seq; [apply (L_skips w _ _ _ _ H4 Fw)|]. cbn beta. intros _ s5 (H5 & S5). apply pc_ret. rewrite <- app_assoc in H5.
    exists (c :: w), (l' ++ y). split; [reflexivity|]. split; [apply ext_escape; [exact X|]; eapply E_hex; eauto|].
    split; [eapply H_less; [|exact H5]; lia|]. eapply same_trans; [exact S2|]. eapply same_trans; [exact S3|]. eapply same_trans; eauto.
Qed.

Definition qst (single : bool) : flow_style := if single then Single else Double.
(** The characters of a line. *)
Lemma L_text single m x w0 k p r s : H k p r s -> (2 <= k)%nat -> upto (qst single) r w0 x ->
  pc (flow_scalar_text single m x) (fun '(x', lb) s' => exists w r', r = w ++ r' /\ H 0 (p ++ w) r' s' /\ same s s' /\
    if lb : bool then single = false /\ exists w' b, w = w' ++ 92 :: b /\ In b break_texts /\ (b = [13] -> hd 0 r' <> 10) /\ extn Double (w0 ++ w') x'
    else upto (qst single) r' (w0 ++ w) x') s.
Proof.
  intros Hh Hk U. unfold flow_scalar_text.
  apply (pc_loop (fun x' s' => exists w r', r = w ++ r' /\ H 2 (p ++ w) r' s' /\ same s s' /\ upto (qst single) r' (w0 ++ w) x')).
  2:{ exists [], r. rewrite !app_nil_r. split; [reflexivity|]. split; [eapply H_less; [|exact Hh]; lia|]. split; [reflexivity|exact U]. }
  intros x1 s1 (w & r1 & -> & H1 & S1 & U1). apply pc_bind, pc_get. pose proof (H_get _ _ _ _ _ _ 0 H1 ltac:(lia)) as G0. pose proof (H_get _ _ _ _ _ _ 1 H1 ltac:(lia)) as G1.
  destruct (is_blankz (bget 0 s1)) eqn:E0; [apply pc_ret; exists w, r1; split; [reflexivity|]; split; [eapply H_less; [|exact H1]; lia|auto]|].
  rewrite G0, G1 in *. destruct r1 as [|c r1]; [discriminate|]. change (nth_error (c :: r1) 1) with (nth_error r1 0) in *. change (nth_error (c :: r1) 0) with (Some c) in *. rewrite filler_is in E0. pose proof (upto_ext _ _ _ _ U1) as X1.
  destruct (single && chk cSQ (Some c) && chk cSQ (nth_error r1 0)) eqn:E1.
  { apply andb_prop in E1. destruct E1 as [E1 E2]. apply andb_prop in E1. destruct E1 as [-> E1]. apply chk_some in E1, E2. injection E1 as ->. destruct r1 as [|d r1]; [discriminate|]. injection E2 as ->.
    eapply pc_seq; [apply (L_skip _ _ _ _ _ _ H1 eq_refl)|]. cbn beta. intros _ s2 (c' & r' & [= <- <-] & _ & H2 & S2).
    eapply pc_seq; [apply (L_skip _ _ _ _ _ _ H2 eq_refl)|]. cbn beta. intros _ s3 (c' & r' & [= <- <-] & _ & H3 & S3).
    eapply pc_seq; [apply (L_cache _ _ 2 _ _ _ _ H3)|]. cbn beta. intros _ s4 (H4 & S4). apply pc_ret. rewrite <- !app_assoc in H4. cbn [app] in H4.
    exists (w ++ [39; 39]), r1. rewrite <- app_assoc. split; [reflexivity|]. split; [eapply H_less; [|exact H4]; lia|].
    split; [eapply same_trans; [exact S1|]; eapply same_trans; [exact S2|]; eapply same_trans; eauto|]. rewrite app_assoc. left. apply ext_quote, X1. }
  destruct (chk (quote_char single) (Some c)) eqn:E2; [apply pc_ret; exists w, (c :: r1); split; [reflexivity|]; split; [eapply H_less; [|exact H1]; lia|auto]|].
  destruct (negb single && chk cBSL (Some c) && is_break (nth_error r1 0)) eqn:E3.
  { apply andb_prop in E3. destruct E3 as [E3 E4]. apply andb_prop in E3. destruct E3 as [Es E3]. apply negb_true_iff in Es. subst single. apply chk_some in E3. injection E3 as ->.
    eapply pc_seq; [apply (L_cache _ _ 3 _ _ _ _ H1)|]. cbn beta. intros _ s2 (H2 & S2).
    eapply pc_seq; [apply (L_skip _ _ _ _ _ _ H2 eq_refl)|]. cbn beta. intros _ s3 (c' & r' & [= <- <-] & _ & H3 & S3).
    eapply pc_seq; [apply (L_skip_break _ _ _ _ _ _ H3); [lia|destruct r1 as [|d r1]; [discriminate|]; cbn; rewrite breaks_is; exact E4]|]. cbn beta. intros _ s4 (b & r4 & -> & B1 & B2 & H4 & S4). apply pc_ret.
    exists (w ++ 92 :: b), r4. rewrite <- !app_assoc in *. cbn [app] in *. split; [reflexivity|]. split; [eapply H_less; [|exact H4]; lia|].
    split; [eapply same_trans; [exact S1|]; eapply same_trans; [exact S2|]; eapply same_trans; eauto|]. split; [reflexivity|]. exists w, b. auto. }
  destruct (negb single && chk cBSL (Some c)) eqn:E4.
  { apply andb_prop in E4. destruct E4 as [Es E4]. apply negb_true_iff in Es. subst single. apply chk_some in E4. injection E4 as ->.
    eapply pc_seq; [apply (L_escape _ _ (w0 ++ w) _ _ _ _ H1); [lia|exact X1]|]. cbn beta. intros x2 s2 (e & r2 & -> & X2 & H2 & S2).
    eapply pc_seq; [apply (L_cache _ _ 2 _ _ _ _ H2)|]. cbn beta. intros _ s3 (H3 & S3). apply pc_ret. rewrite <- !app_assoc in *.
    exists (w ++ 92 :: e), r2. rewrite <- !app_assoc in *. split; [reflexivity|]. split; [eapply H_less; [|exact H3]; lia|].
    split; [eapply same_trans; [exact S1|]; eapply same_trans; eauto|]. left. exact X2. }
  assert (Nb : breaks_line c = false) by (unfold filler in E0; apply orb_false_elim in E0; tauto).
  eapply pc_seq; [apply (L_read _ _ _ _ _ _ x1 H1 Nb)|]. cbn beta. intros x2 s2 (c' & r' & [= <- <-] & _ & -> & H2 & S2).
  eapply pc_seq; [apply (L_cache _ _ 2 _ _ _ _ H2)|]. cbn beta. intros _ s3 (H3 & S3). apply pc_ret. rewrite <- !app_assoc in H3.
  exists (w ++ [c]), r1. rewrite <- !app_assoc. split; [reflexivity|]. split; [eapply H_less; [|exact H3]; lia|].
  split; [eapply same_trans; [exact S1|]; eapply same_trans; eauto|]. rewrite app_assoc. left. apply ext_char; [exact X1|exact E0| |].
  - intros Es. destruct single; [|discriminate]. cbn in E2. lia.
  - intros Es. destruct single; [discriminate|]. cbn in E2, E4. lia.
Qed.

(** The blanks and line breaks between two pieces of text. *)
Definition gathered (lb0 : bool) (g lbk tr ws : str) (lb : bool) : Prop :=
  Forall (fun c => filler c = true) g /\
  if lb0 then lb = true /\ ws = [] /\ lbk = [] /\ tr = breaks_of g
  else if lb then ws = [] /\ exists c, lbk = [c] /\ breaks_of g = c :: tr
  else ws = g /\ lbk = [] /\ tr = [] /\ Forall (fun c => blank c = true) g.
Lemma not_filler k p r s : H k p r s -> (1 <= k)%nat -> is_blank (bget 0 s) = false -> is_break (bget 0 s) = false -> no_filler r.
Proof.
  intros Hh Hk A B. rewrite (H_get _ _ _ _ _ _ _ Hh) in A, B by lia. destruct r as [|c r]; [exact Logic.I|]. cbn [nth_error no_filler] in *. unfold filler. rewrite blank_is, A, breaks_is. exact B.
Qed.
Lemma L_gather lb0 k p r s : H k p r s -> (1 <= k)%nat ->
  pc (flow_scalar_blanks [] [] [] lb0) (fun '(lbk, tr, ws, lb) s' => exists g r', r = g ++ r' /\ gathered lb0 g lbk tr ws lb /\ H 1 (p ++ g) r' s' /\ same s s' /\ no_filler r') s.
Proof.
  intros Hh Hk. unfold flow_scalar_blanks.
  apply (pc_loop (fun '(lbk, tr, ws, lb) s' => exists g r', r = g ++ r' /\ gathered lb0 g lbk tr ws lb /\ H 1 (p ++ g) r' s' /\ same s s')).
  2:{ exists [], r. rewrite !app_nil_r. split; [reflexivity|]. split; [|split; [eapply H_less; [|exact Hh]; lia|reflexivity]]. split; [constructor|]. destruct lb0; auto 6. }
  intros [[[lbk tr] ws] lb] s1 (g & r1 & -> & (F & G) & H1 & S1). apply pc_bind, pc_get. destruct (is_blank (bget 0 s1)) eqn:E1.
  - destruct (c_blank _ E1) as (c & Ec & Bc & Nc). destruct (H_head _ _ _ _ _ _ _ H1 Ec) as [r2 ->].
    assert (Fg : Forall (fun c => filler c = true) (g ++ [c])) by (apply Forall_app; split; [exact F|apply blank_filler; repeat constructor; exact Bc]).
    destruct lb.
    + eapply pc_seq; [apply (L_skip _ _ _ _ _ _ H1 Nc)|]. cbn beta. intros _ s2 (c' & r' & [= <- <-] & _ & H2 & S2).
      eapply pc_seq; [apply (L_cache _ _ 1 _ _ _ _ H2)|]. cbn beta. intros _ s3 (H3 & S3). apply pc_ret. exists (g ++ [c]), r2. rewrite <- !app_assoc in *. split; [reflexivity|].
      split; [|split; [eapply H_less; [|exact H3]; lia|eapply same_trans; [exact S1|]; eapply same_trans; eauto]]. split; [exact Fg|]. rewrite (breaks_snoc_blank p g c Bc). exact G.
    + assert (Hl : lb0 = false) by (destruct lb0; [destruct G as [G _]; discriminate G|reflexivity]). subst lb0. destruct G as (-> & -> & -> & Fb).
      eapply pc_seq; [apply (L_read _ _ _ _ _ _ g H1 Nc)|]. cbn beta. intros w' s2 (c' & r' & [= <- <-] & _ & -> & H2 & S2).
      eapply pc_seq; [apply (L_cache _ _ 1 _ _ _ _ H2)|]. cbn beta. intros _ s3 (H3 & S3). apply pc_ret. exists (g ++ [c]), r2. rewrite <- !app_assoc in *. split; [reflexivity|].
      split; [|split; [eapply H_less; [|exact H3]; lia|eapply same_trans; [exact S1|]; eapply same_trans; eauto]]. split; [exact Fg|].
      split; [reflexivity|]. split; [reflexivity|]. split; [reflexivity|]. apply Forall_app. split; [exact Fb|repeat constructor; exact Bc].
  - destruct (is_break (bget 0 s1)) eqn:E2.
    2:{ apply pc_ret. exists g, r1. split; [reflexivity|]. split; [split; assumption|]. split; [exact H1|]. split; [exact S1|]. apply (not_filler _ _ _ _ H1); auto. }
    eapply pc_seq; [apply (L_cache _ _ 2 _ _ _ _ H1)|]. cbn beta. intros _ s2 (H2 & S2). pose proof (is_break_head _ _ _ _ _ _ H1 E2) as Hb.
    assert (Go : forall b r', r1 = b ++ r' -> In b break_texts -> breaks_of (g ++ b) = breaks_of g ++ breaks_of b).
    { intros b r' -> B. apply (breaks_app p). intros Hc. pose proof (h_cr _ _ _ _ _ _ H1 Hc) as X. destruct b as [|c b]; [cbn; discriminate|exact X]. }
    destruct lb.
    + eapply pc_seq; [apply (L_read_break _ _ _ _ _ _ tr H2); [lia|exact Hb]|]. cbn beta. intros t2 s3 (b & r3 & -> & B1 & B2 & -> & H3 & S3). specialize (Go b r3 eq_refl B1).
      eapply pc_seq; [apply (L_cache _ _ 1 _ _ _ _ H3)|]. cbn beta. intros _ s4 (H4 & S4). apply pc_ret. exists (g ++ b), r3. rewrite <- !app_assoc in *. split; [reflexivity|].
      split; [|split; [eapply H_less; [|exact H4]; lia|eapply same_trans; [exact S1|]; eapply same_trans; [exact S2|]; eapply same_trans; eauto]].
      split; [apply Forall_app; split; [exact F|apply (break_filler _ B1)]|]. rewrite Go. destruct lb0.
      * destruct G as (_ & -> & -> & ->). auto.
      * destruct G as (-> & c & -> & ->). split; [reflexivity|]. exists c. auto.
    + assert (Hl : lb0 = false) by (destruct lb0; [destruct G as [G _]; discriminate G|reflexivity]). subst lb0. destruct G as (-> & -> & -> & Fb).
      eapply pc_seq; [apply (L_read_break _ _ _ _ _ _ [] H2); [lia|exact Hb]|]. cbn beta. intros t2 s3 (b & r3 & -> & B1 & B2 & -> & H3 & S3). specialize (Go b r3 eq_refl B1).
      eapply pc_seq; [apply (L_cache _ _ 1 _ _ _ _ H3)|]. cbn beta. intros _ s4 (H4 & S4). apply pc_ret. exists (g ++ b), r3. rewrite <- !app_assoc in *. split; [reflexivity|].
      split; [|split; [eapply H_less; [|exact H4]; lia|eapply same_trans; [exact S1|]; eapply same_trans; [exact S2|]; eapply same_trans; eauto]].
      split; [apply Forall_app; split; [exact F|apply (break_filler _ B1)]|]. split; [reflexivity|]. rewrite Go, (breaks_blanks _ Fb). destruct (breaks_break _ B1) as [c Ec]. exists c. cbn [app]. rewrite Ec. auto.
Qed.
Lemma fold_gap x c tr g : breaks_of g = c :: tr -> fold_breaks x [c] tr = x ++ folded g.
Proof.
  intros E. unfold fold_breaks, folded. rewrite E. cbn [starts_with]. destruct tr as [|d tr]; cbn [is_empty]; destruct (c =? cLF) eqn:Ec; try (change (c =? 10) with (c =? cLF); rewrite Ec); reflexivity.
Qed.
Lemma folded_blanks g : Forall (fun c => blank c = true) g -> folded g = g.
Proof. intros F. unfold folded. rewrite (breaks_blanks _ F). reflexivity. Qed.

Lemma L_quoted single k p r s : H k p r s -> bget 0 s = Some (quote_char single) -> pc (scan_flow_scalar single) (scanned rest T p r s) s.
Proof.
  intros Hh Hb. destruct (H_head _ _ _ _ _ _ _ Hh Hb) as [r1 ->]. unfold scan_flow_scalar. apply pc_bind, pc_gets.
  assert (Nq : breaks_line (quote_char single) = false) by (destruct single; reflexivity).
  eapply pc_seq; [apply (L_skip _ _ _ _ _ _ Hh Nq)|]. cbn beta. intros _ s1 (c & r' & [= <- <-] & _ & H1 & S1). apply pc_bind.
  apply (pc_loop (fun '(x, lbk, tr, ws) s' => lbk = [] /\ tr = [] /\ ws = [] /\ exists w r', r1 = w ++ r' /\ H 0 (p ++ quote_char single :: w) r' s' /\ same s s' /\ upto (qst single) r' w x)).
  2:{ split; [reflexivity|]. split; [reflexivity|]. split; [reflexivity|]. exists [], r1. split; [reflexivity|]. split; [eapply H_less; [|exact H1]; lia|]. split; [exact S1|left; apply ext_nil]. }
  intros [[[x lbk] tr] ws] s2 (-> & -> & -> & w & r2 & -> & H2 & S2 & U2).
  eapply pc_seq; [apply (L_cache _ _ 4 _ _ _ _ H2)|]. cbn beta. intros _ s3 (H3 & S3). apply pc_bind, pc_get.
  destruct (at_document_indicator s3); [apply pc_error|]. destruct (is_z (bget 0 s3)); [apply pc_error|].
  eapply pc_seq; [apply (L_cache _ _ 2 _ _ _ _ H3)|]. cbn beta. intros _ s4 (H4 & S4).
  eapply pc_seq; [apply (L_text single _ x w _ _ _ _ H4); [lia|exact U2]|]. cbn beta. intros [x5 lb] s5 (w5 & r5 & -> & H5 & S5 & R5).
  eapply pc_seq; [apply (L_cache _ _ 1 _ _ _ _ H5)|]. cbn beta. intros _ s6 (H6 & S6). apply pc_bind, pc_get.
  assert (S06 : same s s6) by (eapply same_trans; [exact S2|]; eapply same_trans; [exact S3|]; eapply same_trans; [exact S4|]; eapply same_trans; eauto). clear S2 S3 S4 S5 S6.
  destruct (chk (quote_char single) (bget 0 s6)) eqn:E6.
  - apply pc_ret. apply chk_some in E6. destruct (H_head _ _ _ _ _ _ _ H6 E6) as [r7 ->].
    eapply pc_seq; [apply (L_skip _ _ _ _ _ _ H6 Nq)|]. cbn beta. intros _ s8 (c & r' & [= <- <-] & _ & H8 & S8). apply pc_bind, pc_gets, pc_ret.
    assert (R : reads (qst single) (w ++ w5) x5).
    { destruct lb; [|apply (upto_end _ _ _ _ R5)]. destruct R5 as (-> & w' & b & -> & B1 & _ & X). 
      pose proof (extn_joined _ _ b [] X B1 (Forall_nil _) [] [] Logic.I (R_nil _)) as Y. rewrite !app_nil_r in Y. rewrite app_assoc.
      destruct (breaks_break _ B1) as [z Ez]. rewrite Ez in Y. cbn [tl] in Y. rewrite app_nil_r in Y. exact Y. }
    eapply (scanned_here rest T _ _ _ _ _ _ (quote_char single :: (w ++ w5) ++ [quote_char single]) r7).
    + cbn [app]. rewrite <- !app_assoc. reflexivity.
    + discriminate.
    + cbn [t_data]. destruct single; exact Logic.I.
    + cbn [t_data]. destruct single; constructor; exact R.
    + apply (h_pos _ _ _ _ _ _ Hh).
    + rewrite <- !app_assoc in *. cbn [app] in *. rewrite <- ?app_assoc in *. apply (h_pos _ _ _ _ _ _ H8).
    + rewrite <- !app_assoc in *. cbn [app] in *. rewrite <- ?app_assoc in *. exact H8.
    + eapply same_trans; eauto.
  - eapply pc_seq; [apply (L_cache _ _ 1 _ _ _ _ H6)|]. cbn beta. intros _ s7 (H7 & S7).
    eapply pc_seq; [apply (L_gather lb _ _ _ _ H7); lia|]. cbn beta. intros [[[lbk tr] ws] lb'] s8 (g & r8 & -> & (Fg & G) & H8 & S8 & N8).
    assert (S08 : same s s8) by (eapply same_trans; [exact S06|]; eapply same_trans; eauto).
    assert (H8' : H 0 (p ++ quote_char single :: (w ++ w5) ++ g) r8 s8) by (rewrite <- !app_assoc in *; cbn [app] in *; rewrite <- ?app_assoc in *; eapply H_less; [|exact H8]; lia).
    assert (E8 : w ++ w5 ++ g ++ r8 = ((w ++ w5) ++ g) ++ r8) by (rewrite <- !app_assoc; reflexivity).
    destruct lb.
    + destruct G as (-> & -> & -> & ->). apply pc_ret. split; [reflexivity|]. split; [reflexivity|]. split; [reflexivity|]. destruct R5 as (-> & w' & b & -> & B1 & B2 & X).
      exists ((w ++ w' ++ 92 :: b) ++ g), r8. split; [exact E8|]. split; [exact H8'|]. split; [exact S08|]. right. split; [|exact N8].
      unfold fold_breaks. cbn [starts_with]. cbn [app].
      assert (Z : tl (breaks_of (b ++ g)) = breaks_of g).
      { etransitivity; [apply (f_equal (@tl _)), (breaks_app (p ++ quote_char false :: w ++ w' ++ [92]) b g)|destruct (breaks_break _ B1) as [z ->]; reflexivity].
        rewrite <- !app_assoc. cbn [app]. rewrite <- !app_assoc. cbn [app]. intros Hc. pose proof (h_cr _ _ _ _ _ _ H6) as Y6. rewrite <- !app_assoc in Y6. cbn [app] in Y6. rewrite <- ?app_assoc in Y6.
        specialize (Y6 Hc). destruct g as [|z g]; [cbn; discriminate|exact Y6]. }
      pose proof (extn_joined _ _ b g X B1 Fg) as Y. unfold str, char in *. rewrite Z in Y. rewrite <- !app_assoc in *. cbn [app] in *. exact Y.
    + destruct lb'.
      * destruct G as (-> & c & -> & Ec). apply pc_ret. split; [reflexivity|]. split; [reflexivity|]. split; [reflexivity|]. exists ((w ++ w5) ++ g), r8. split; [exact E8|]. split; [exact H8'|]. split; [exact S08|].
        right. split; [|exact N8]. rewrite (fold_gap x5 c tr g Ec). apply extn_gap; [|intros ->; discriminate Ec|exact Fg]. destruct R5 as [X|[_ N]]; [exact X|].
        destruct g as [|z g]; [discriminate Ec|]. cbn in N. apply Forall_inv in Fg. congruence.
      * destruct G as (-> & -> & -> & Fb). apply pc_ret. split; [reflexivity|]. split; [reflexivity|]. split; [reflexivity|]. exists ((w ++ w5) ++ g), r8. split; [exact E8|]. split; [exact H8'|]. split; [exact S08|].
        destruct g as [|z g]; [rewrite !app_nil_r; exact R5|]. right. split; [|exact N8]. rewrite <- (folded_blanks _ Fb) at 2. apply extn_gap; [|discriminate|exact Fg]. destruct R5 as [X|[_ N]]; [exact X|].
        cbn in N. apply Forall_inv in Fg. congruence.
Qed.
End text.
