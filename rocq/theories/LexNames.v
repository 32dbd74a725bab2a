(** LexNames.v -- the text of anchors, aliases, tags and directives. *)
From Coq Require Import Lia ZifyBool ZifyNat ZifyN Bool.
From Verif Require Import Base Utf Chars State Reader Scanner Wp ReaderFacts ReadFacts ScanFacts Spec_Lexical LexBase LexScan.
Open Scope N_scope.

Section text.
Variable rest : list byte.
Variable T : str.
Notation H := (H rest T).

(** The token [t] was read from the text [w] after [p]; then [g] was skipped. *)
Definition scanned (p r : str) (s : sst) (t : token) (s' : sst) : Prop :=
  exists w g r', r = w ++ g ++ r' /\ w <> [] /\ says (t_data t) w /\ t_start t = position p /\ t_end t = position (p ++ w) /\
    skips (p ++ w) (g ++ r') g r' /\ H 0 (p ++ w ++ g) r' s' /\ same s s' /\ delimited (flow_level s) p (t_data t) w (g ++ r').
Lemma scanned_here k (p r : str) s t s' (w r' : str) : r = w ++ r' -> w <> [] -> delimited (flow_level s) p (t_data t) w r' -> says (t_data t) w -> t_start t = position p -> t_end t = position (p ++ w) ->
  H k (p ++ w) r' s' -> same s s' -> scanned p r s t s'.
Proof.
  intros -> Nw Hd Hs H1 H2 Hh S. exists w, [], r'. cbn [app]. rewrite app_nil_r. split; [reflexivity|]. split; [exact Nw|]. split; [exact Hs|]. split; [exact H1|]. split; [exact H2|].
  split; [apply skips_refl|]. split; [eapply H_less; [|exact Hh]; lia|]. split; [exact S|exact Hd].
Qed.

Lemma blankz_ends k p r s : H k p r s -> (1 <= k)%nat -> is_blankz (bget 0 s) = true -> ends filler r.
Proof. intros Hh L E. rewrite (H_get _ _ _ _ _ _ _ Hh) in E by lia. destruct r as [|c r]; [exact Logic.I|]. cbn [nth_error] in E. rewrite filler_is in E. exact E. Qed.
Lemma L_anchor (alias : bool) k p r s : H k p r s -> bget 0 s = Some (if alias then 42 else 38) -> pc (scan_anchor alias) (scanned p r s) s.
Proof.
  intros Hh Hb. destruct (H_head _ _ _ _ _ _ _ Hh Hb) as [r1 ->]. unfold scan_anchor. apply pc_bind, pc_gets.
  eapply pc_seq; [apply (L_skip _ _ _ _ _ _ Hh); destruct alias; reflexivity|]. cbn beta. intros _ s1 (c & r' & [= <- <-] & _ & H1 & S1).
  eapply pc_seq; [apply (L_cache _ _ 1 _ _ _ _ H1)|]. cbn beta. intros _ s2 (H2 & S2).
  eapply pc_seq; [eapply (L_read_while _ _ _ (fun c => word_char c = true) [] _ _ _ _ H2); [lia|exact c_word]|]. cbn beta. intros x s3 (w & r3 & -> & F & -> & H3 & S3 & _).
  cbn [app]. apply pc_bind, pc_gets. apply pc_bind, pc_get. destruct (is_empty w || negb (anchor_end_ok (bget 0 s3))) eqn:E; [apply pc_error|]. apply pc_ret.
  apply orb_false_elim in E. destruct E as [E Ee]. apply negb_false_iff in Ee. rewrite (H_get _ _ _ _ _ _ _ H3) in Ee by lia. assert (Hw : w <> []) by (intros ->; discriminate). rewrite <- app_assoc in H3.
  eapply (scanned_here _ _ _ _ _ _ ((if alias then 42 else 38) :: w) r3); [reflexivity|discriminate| | |apply (h_pos _ _ _ _ _ _ Hh)|apply (h_pos _ _ _ _ _ _ H3)|exact H3|eapply same_trans; [exact S1|eapply same_trans; eauto]].
  - assert (D : ends (fun c => filler c || existsb (N.eqb c) [63; 58; 44; 93; 125; 37; 64; 96]) r3); [|destruct alias; exact D].
    destruct r3 as [|c r3]; [exact Logic.I|]. cbn [nth_error] in Ee. unfold anchor_end_ok in Ee. rewrite filler_is in Ee. cbn [ends]. unfold chk in Ee. cbn [existsb]. rewrite orb_false_r. rewrite <- !orb_assoc in Ee. exact Ee.
  - destruct alias; cbn [t_data]; constructor; auto.
Qed.

(** ** URIs *)
Definition uri_so (all : bool) (w v : str) : Prop := forall w' v', uri all w' v' -> uri all (w ++ w') (v ++ v').
Lemma uri_so_nil a : uri_so a [] []. Proof. intros w v U. exact U. Qed.
Lemma uri_so_end a w v : uri_so a w v -> uri a w v.
Proof. intros X. specialize (X [] [] (U_nil _)). rewrite !app_nil_r in X. exact X. Qed.
Lemma uri_so_char a w v c : uri_so a w v -> uri_char a c = true -> uri_so a (w ++ [c]) (v ++ [c]).
Proof. intros X Hc w' v' U. rewrite <- !app_assoc. apply X. constructor; assumption. Qed.
Lemma uri_so_escape a w v c d x y : uri_so a w v -> hex_digit c = Some x -> hex_digit d = Some y -> uri_so a (w ++ [37; c; d]) (v ++ [x * 16 + y]).
Proof. intros X Hc Hd w' v' U. rewrite <- !app_assoc. apply X. cbn [app]. constructor; assumption. Qed.
Lemma uri_so_word w : Forall (fun c => word_char c = true) w -> uri_so false w w.
Proof.
  induction w as [|c w IH] using rev_ind; intros F; [apply uri_so_nil|]. apply Forall_app in F. destruct F as [F Fc]. apply Forall_inv in Fc. apply uri_so_char; [apply IH, F|].
  unfold uri_char. rewrite Fc. reflexivity.
Qed.
Lemma hex_is c : hex_digit c = as_hex (Some c).
Proof. unfold hex_digit, as_hex, is_hex_c, hex_val, Chars.in_range. destruct ((48 <=? c) && (c <=? 57)); [reflexivity|]. destruct ((65 <=? c) && (c <=? 70)); [reflexivity|]. destruct ((97 <=? c) && (c <=? 102)); reflexivity. Qed.
Lemma hex_nobreak c x : hex_digit c = Some x -> breaks_line c = false.
Proof. unfold hex_digit, breaks_line. intros E. destruct ((48 <=? c) && (c <=? 57)) eqn:E1; [lia|]. destruct ((65 <=? c) && (c <=? 70)) eqn:E2; [lia|]. destruct ((97 <=? c) && (c <=? 102)) eqn:E3; [lia|discriminate]. Qed.
Lemma uri_char_is all c : uri_char_ok all (Some c) = true -> c <> 37 -> uri_char all c = true.
Proof. unfold uri_char_ok, uri_char, is_alpha, chk. intros E N. change (is_alpha_c c) with (word_char c) in E. cbn [existsb]. destruct (word_char c); [reflexivity|]. cbn [orb] in *. destruct all; cbn [andb] in *; lia. Qed.
Lemma uri_nobreak all c : uri_char_ok all (Some c) = true -> breaks_line c = false.
Proof.
  intros E. destruct (N.eq_dec c 37) as [->|N]; [reflexivity|]. apply uri_char_is in E; [|exact N]. unfold uri_char in E. destruct (word_char c) eqn:Ew; [apply word_nobreak, Ew|].
  cbn [orb existsb] in E. unfold breaks_line. destruct all; cbn [andb] in E; lia.
Qed.

(** Three characters that are not line breaks. *)
Lemma L_skip3 k p a b c r s : H k p (a :: b :: c :: r) s -> breaks_line a = false -> breaks_line b = false -> breaks_line c = false ->
  pc (skip_chars 3) (fun _ s' => H (k - 3) (p ++ [a; b; c]) r s' /\ same s s') s.
Proof.
  intros Hh Ha Hb Hc. cbn [skip_chars].
  eapply pc_seq; [apply (L_skip _ _ _ _ _ _ Hh Ha)|]. cbn beta. intros _ s1 (c1 & r1 & [= <- <-] & _ & H1 & S1).
  eapply pc_seq; [apply (L_skip _ _ _ _ _ _ H1 Hb)|]. cbn beta. intros _ s2 (c2 & r2 & [= <- <-] & _ & H2 & S2).
  eapply pc_seq; [apply (L_skip _ _ _ _ _ _ H2 Hc)|]. cbn beta. intros _ s3 (c3 & r3 & [= <- <-] & _ & H3 & S3). apply pc_ret.
  rewrite <- !app_assoc in H3. split; [eapply H_less; [|exact H3]; lia|]. eapply same_trans; [exact S1|]. eapply same_trans; eauto.
Qed.
Lemma L_escapes all directive m v0 w0 k p r s : H k p r s -> uri_so all w0 v0 ->
  pc (scan_uri_escapes directive m v0) (fun v s' => exists w r', r = w ++ r' /\ w <> [] /\ uri_so all (w0 ++ w) v /\ H 0 (p ++ w) r' s' /\ same s s') s.
Proof.
  intros Hh U0. unfold scan_uri_escapes.
  apply (pc_loop (fun '(width, v) s' => exists w r', r = w ++ r' /\ uri_so all (w0 ++ w) v /\ H 0 (p ++ w) r' s' /\ same s s')).
  2:{ exists [], r. rewrite !app_nil_r. split; [reflexivity|]. split; [exact U0|]. split; [eapply H_less; [|exact Hh]; lia|reflexivity]. }
  intros [width v] s1 (w & r1 & -> & U1 & H1 & S1).
  eapply pc_seq; [apply (L_cache _ _ 3 _ _ _ _ H1)|]. cbn beta. intros _ s2 (H2 & S2). apply pc_bind, pc_get.
  destruct (negb (chk cPCT (bget 0 s2) && is_hex (bget 1 s2) && is_hex (bget 2 s2))) eqn:E; [apply pc_error|]. apply negb_false_iff in E. apply andb_prop in E. destruct E as [E _]. apply andb_prop in E. destruct E as [E _]. apply chk_some in E.
  destruct (as_hex (bget 1 s2)) as [h|] eqn:E1; [|apply pc_panics]. destruct (as_hex (bget 2 s2)) as [l|] eqn:E2; [|apply pc_panics].
  rewrite (H_get _ _ _ _ _ _ _ H2) in E by lia. rewrite (H_get _ _ _ _ _ _ _ H2) in E1 by lia. rewrite (H_get _ _ _ _ _ _ _ H2) in E2 by lia.
  destruct r1 as [|a [|b [|c r2]]]; try discriminate. cbn [nth_error] in E, E1, E2. injection E as ->. rewrite <- hex_is in E1, E2.
  apply pc_bind. eapply pc_conseq with (Q := fun _ s' => s' = s2).
  { destruct (width =? 0); [destruct (octet_width _ =? 0); [apply pc_error|apply pc_ret; reflexivity]|]. destruct (negb _); [apply pc_error|apply pc_ret; reflexivity]. }
  cbn beta. intros width' s3 ->.
  eapply pc_seq; [apply (L_skip3 _ _ _ _ _ _ _ H2); [reflexivity|exact (hex_nobreak _ _ E1)|exact (hex_nobreak _ _ E2)]|]. cbn beta. intros _ s4 (H4 & S4).
  assert (X : exists w' r', w ++ 37 :: b :: c :: r2 = w' ++ r' /\ w' <> [] /\ uri_so all (w0 ++ w') (v ++ [h * 16 + l]) /\ H 0 (p ++ w') r' s4 /\ same s s4).
  { exists (w ++ [37; b; c]), r2. rewrite <- !app_assoc. split; [reflexivity|]. split; [destruct w; discriminate|]. rewrite app_assoc. split; [apply uri_so_escape; assumption|].
    split; [rewrite app_assoc; eapply H_less; [|exact H4]; lia|]. eapply same_trans; [exact S1|]. eapply same_trans; eauto. }
  destruct (width' - 1 =? 0); apply pc_ret; destruct X as (w' & r' & X1 & X2 & X3 & X4 & X5); exists w', r'; auto 6.
Qed.
Lemma L_uri all directive m k p r s w0 (h : str) : H k p r s ->
  uri_so all w0 (if 1 <? str_len h then tl h else []) ->
  pc (scan_tag_uri all directive (Some h) m) (fun v s' => exists w r', r = w ++ r' /\ uri_so all (w0 ++ w) v /\ (h = [] -> w <> []) /\ H 1 (p ++ w) r' s' /\ same s s') s.
Proof.
  intros Hh U0. unfold scan_tag_uri. cbv zeta.
  eapply pc_seq; [apply (L_cache _ _ 1 _ _ _ _ Hh)|]. cbn beta. intros _ s1 (H1 & S1). apply pc_bind.
  apply (pc_loop (fun '(v, n) s' => exists w r', r = w ++ r' /\ uri_so all (w0 ++ w) v /\ (h = [] -> w = [] -> n = 0) /\ H 1 (p ++ w) r' s' /\ same s s')).
  2:{ exists [], r. rewrite !app_nil_r. split; [reflexivity|]. split; [exact U0|]. split; [intros -> _; reflexivity|]. split; [eapply H_less; [|exact H1]; lia|exact S1]. }
  intros [v n] s2 (w & r2 & -> & U2 & N2 & H2 & S2). apply pc_bind, pc_get. destruct (uri_char_ok all (bget 0 s2)) eqn:E.
  - destruct (bget 0 s2) as [c|] eqn:Eb; [|destruct all; discriminate E]. pose proof (uri_nobreak _ _ E) as Hn. destruct (H_head _ _ _ _ _ _ _ H2 Eb) as [r3 ->]. apply pc_bind.
    eapply pc_conseq with (Q := fun v' s' => exists w' r', c :: r3 = w' ++ r' /\ w' <> [] /\ uri_so all (w0 ++ w ++ w') v' /\ H 0 (p ++ w ++ w') r' s' /\ same s s').
    { destruct (chk cPCT (Some c)) eqn:Ep.
      - eapply pc_conseq; [apply (L_escapes all _ _ _ (w0 ++ w) _ _ _ _ H2 U2)|]. cbn beta. intros v' s' (w' & r' & E' & A1 & A2 & A3 & A4). exists w', r'. rewrite <- !app_assoc in *. split; [exact E'|]. split; [exact A1|]. split; [exact A2|]. split; [exact A3|]. eapply same_trans; eauto.
      - eapply pc_conseq; [apply (L_read _ _ _ _ _ _ v H2 Hn)|]. cbn beta. intros v' s' (c' & r' & [= <- <-] & _ & -> & H3 & S3). exists [c], r3. split; [reflexivity|]. split; [discriminate|].
        rewrite !app_assoc. split; [apply uri_so_char; [exact U2|apply uri_char_is; [exact E|intros ->; discriminate]]|]. split; [eapply H_less; [|exact H3]; lia|eapply same_trans; eauto]. }
    cbn beta. intros v' s3 (w' & r' & E' & A1 & A2 & A3 & A4). eapply pc_seq; [apply (L_cache _ _ 1 _ _ _ _ A3)|]. cbn beta. intros _ s4 (H4 & S4). apply pc_ret.
    exists (w ++ w'), r'. rewrite E', <- app_assoc. split; [reflexivity|]. split; [exact A2|]. split; [intros _ X; apply app_eq_nil in X; tauto|]. split; [eapply H_less; [|exact H4]; lia|eapply same_trans; eauto].
  - apply pc_ret. destruct (n =? 0) eqn:En; [apply pc_error|]. apply pc_ret. exists w, r2. split; [reflexivity|]. split; [exact U2|]. split; [intros A B; rewrite (N2 A B) in En; discriminate|]. auto.
Qed.
(** Handles. *)
Lemma L_handle directive m k p r s : H k p r s ->
  pc (scan_tag_handle directive m) (fun h s' => exists w r', h = 33 :: w /\ r = h ++ r' /\ H 0 (p ++ h) r' s' /\ same s s' /\
    ((exists x, w = x ++ [33] /\ word x) \/ word w /\ (directive = true -> w = []) /\ hd 0 r' <> 33)) s.
Proof.
  intros Hh. unfold scan_tag_handle. eapply pc_seq; [apply (L_cache _ _ 1 _ _ _ _ Hh)|]. cbn beta. intros _ s1 (H1 & S1). apply pc_bind, pc_get.
  destruct (chk cBANG (bget 0 s1)) eqn:E; cbn [negb]; [|apply pc_error]. apply chk_some in E. destruct (H_head _ _ _ _ _ _ _ H1 E) as [r1 ->].
  eapply pc_seq; [apply (L_read _ _ _ _ _ _ [] H1 eq_refl)|]. cbn beta. intros x s2 (c & r' & [= <- <-] & _ & -> & H2 & S2). cbn [app].
  eapply pc_seq; [apply (L_cache _ _ 1 _ _ _ _ H2)|]. cbn beta. intros _ s3 (H3 & S3).
  eapply pc_seq; [eapply (L_read_while _ _ _ (fun c => word_char c = true) _ _ _ _ _ H3); [lia|exact c_word]|]. cbn beta. intros x s4 (w & r4 & -> & F & -> & H4 & S4 & _). cbn [app].
  assert (S04 : same s s4) by (eapply same_trans; [exact S1|eapply same_trans; [exact S2|eapply same_trans; eauto]]). rewrite <- app_assoc in H4.
  apply pc_bind, pc_get. destruct (chk cBANG (bget 0 s4)) eqn:E4.
  - apply chk_some in E4. destruct (H_head _ _ _ _ _ _ _ H4 E4) as [r5 ->]. eapply pc_conseq; [apply (L_read _ _ _ _ _ _ _ H4 eq_refl)|]. cbn beta. intros x s5 (c & r' & [= <- <-] & _ & -> & H5 & S5).
    exists (w ++ [33]), r5. split; [reflexivity|]. split; [cbn; rewrite <- app_assoc; reflexivity|]. split; [rewrite <- app_assoc in H5; eapply H_less; [|exact H5]; lia|]. split; [eapply same_trans; eauto|]. left. exists w. auto.
  - destruct (directive && _) eqn:Ed; [apply pc_error|]. apply pc_ret. exists w, r4. split; [reflexivity|]. split; [reflexivity|]. split; [eapply H_less; [|exact H4]; lia|]. split; [exact S04|]. right. split; [exact F|].
    split; [intros ->; cbn [andb] in Ed; apply negb_false_iff in Ed; destruct w as [|a w]; [reflexivity|cbn in Ed; discriminate Ed]|].
    rewrite (H_get _ _ _ _ _ _ _ H4) in E4 by lia. destruct r4 as [|a r4]; cbn in E4 |- *; [discriminate|]. lia.
Qed.
Lemma last_opt_snoc {A} (l : list A) a : last_opt (l ++ [a]) = Some a.
Proof. induction l as [|x l IH]; [reflexivity|]. cbn [app]. destruct (l ++ [a]) as [|y z] eqn:E; [destruct l; discriminate|]. cbn [last_opt]. exact IH. Qed.
Lemma word_end (x : str) : word x -> ends_with cBANG (33 :: x) = true -> x = [].
Proof.
  intros F E. destruct x as [|a x _] using rev_ind; [reflexivity|]. exfalso. apply Forall_app in F. destruct F as [_ F]. apply Forall_inv in F. cbn beta in F.
  unfold ends_with in E. change (33 :: x ++ [a]) with ((33 :: x) ++ [a]) in E. rewrite last_opt_snoc in E. unfold word_char in F. lia.
Qed.

(** ** Tags *)
Lemma L_uri0 all directive m k p r s : H k p r s ->
  pc (scan_tag_uri all directive None m) (fun v s' => exists w r', r = w ++ r' /\ uri all w v /\ w <> [] /\ H 1 (p ++ w) r' s' /\ same s s') s.
Proof.
  intros Hh. eapply pc_conseq; [apply (L_uri all directive m k p r s [] [] Hh), uri_so_nil|]. cbn beta. intros v s' (w & r' & E & U & N & H1 & S1).
  exists w, r'. cbn [app] in U. split; [exact E|]. split; [apply uri_so_end, U|]. split; [apply N; reflexivity|auto].
Qed.
Lemma L_tag k p r s : H k p r s -> bget 0 s = Some 33 -> pc scan_tag (scanned p r s) s.
Proof.
  intros Hh Hb. destruct (H_head _ _ _ _ _ _ _ Hh Hb) as [r1 ->]. unfold scan_tag. apply pc_bind, pc_gets.
  eapply pc_seq; [apply (L_cache _ _ 2 _ _ _ _ Hh)|]. cbn beta. intros _ s1 (H1 & S1). apply pc_bind, pc_get. apply pc_bind.
  eapply pc_conseq with (Q := fun '(h, u) s' => exists w r', 33 :: r1 = w ++ r' /\ says (TTag h u) w /\ H 0 (p ++ w) r' s' /\ same s s').
  { destruct (chk cLT (bget 1 s1)) eqn:E.
    - apply chk_some in E. rewrite (H_get _ _ _ _ _ _ _ H1) in E by lia. destruct r1 as [|c r1]; [discriminate|]. injection E as ->.
      eapply pc_seq; [apply (L_skip _ _ _ _ _ _ H1 eq_refl)|]. cbn beta. intros _ s2 (c & r' & [= <- <-] & _ & H2 & S2).
      eapply pc_seq; [apply (L_skip _ _ _ _ _ _ H2 eq_refl)|]. cbn beta. intros _ s3 (c & r' & [= <- <-] & _ & H3 & S3).
      eapply pc_seq; [apply (L_uri0 _ _ _ _ _ _ _ H3)|]. cbn beta. intros u s4 (w & r4 & -> & U & Nw & H4 & S4). apply pc_bind, pc_get.
      destruct (chk cGT (bget 0 s4)) eqn:E4; cbn [negb]; [|apply pc_error]. apply chk_some in E4. destruct (H_head _ _ _ _ _ _ _ H4 E4) as [r5 ->].
      eapply pc_seq; [apply (L_skip _ _ _ _ _ _ H4 eq_refl)|]. cbn beta. intros _ s5 (c & r' & [= <- <-] & _ & H5 & S5). apply pc_ret.
      exists (lit "!<" ++ w ++ lit ">"), r5. split; [rewrite <- !app_assoc; reflexivity|]. split; [constructor; assumption|]. rewrite <- !app_assoc in H5.
      split; [eapply H_less; [|exact H5]; lia|]. eapply same_trans; [exact S1|]. eapply same_trans; [exact S2|]. eapply same_trans; [exact S3|]. eapply same_trans; eauto.
    - eapply pc_seq; [apply (L_handle _ _ _ _ _ _ H1)|]. cbn beta. intros h s2 (w & r2 & -> & Er & H2 & S2 & D).
      destruct (starts_with cBANG (33 :: w) && (1 <? str_len (33 :: w)) && ends_with cBANG (33 :: w)) eqn:Eh.
      + destruct D as [(x & -> & Wx)|(Ww & _ & _)].
        * eapply pc_seq; [apply (L_uri0 _ _ _ _ _ _ _ H2)|]. cbn beta. intros u s4 (y & r4 & -> & U & Ny & H4 & S4). apply pc_ret.
          exists (lit "!" ++ x ++ lit "!" ++ y), r4. split; [etransitivity; [exact Er|]; cbn; rewrite <- !app_assoc; reflexivity|]. split; [apply (S_tag_handle x y u); assumption|].
          split; [|eapply same_trans; [exact S1|]; eapply same_trans; eauto]. eapply H_less; [|cbn in H4 |- *; rewrite <- !app_assoc in H4; cbn in H4; rewrite <- !app_assoc in H4; exact H4]; lia.
        * exfalso. apply andb_prop in Eh. destruct Eh as [Eh E2]. apply (word_end w Ww) in E2. subst w. discriminate Eh.
      + eapply pc_seq; [apply (L_uri false false _ _ _ _ _ w (33 :: w) H2)|].
        { destruct (1 <? str_len (33 :: w)) eqn:L.
          - cbn [tl]. destruct D as [(x & -> & Wx)|(Ww & _ & _)]; [|apply uri_so_word; exact Ww]. exfalso. rewrite andb_true_r in Eh. cbn [starts_with andb] in Eh.
            unfold ends_with in Eh. change (33 :: x ++ [33]) with ((33 :: x) ++ [33]) in Eh. rewrite last_opt_snoc in Eh. discriminate Eh.
          - destruct w as [|a w]; [apply uri_so_nil|]. exfalso. pose proof (str_len_ge (33 :: a :: w)) as G. cbn [length] in G. lia. }
        cbn beta. intros u s4 (y & r4 & -> & U & _ & H4 & S4). apply uri_so_end in U.
        assert (S04 : same s s4) by (eapply same_trans; [exact S1|]; eapply same_trans; eauto).
        assert (E4 : 33 :: r1 = (33 :: w ++ y) ++ r4) by (etransitivity; [exact Er|]; cbn; rewrite <- !app_assoc; reflexivity).
        assert (H4' : H 0 (p ++ 33 :: w ++ y) r4 s4) by (rewrite <- app_assoc in H4; eapply H_less; [|exact H4]; lia).
        destruct (is_empty u) eqn:Eu; apply pc_ret.
        * destruct u; [|discriminate]. exists (33 :: w ++ y), r4. split; [exact E4|]. split; [|auto]. assert (X : w ++ y = []) by (inversion U; auto). apply app_eq_nil in X. destruct X as [-> ->]. constructor.
        * exists (33 :: w ++ y), r4. split; [exact E4|]. split; [|auto]. apply S_tag_primary; [intros ->; discriminate|exact U]. }
  cbn beta. intros [h u] s2 (w & r' & E & Hs & H2 & S2).
  eapply pc_seq; [apply (L_cache _ _ 1 _ _ _ _ H2)|]. cbn beta. intros _ s3 (H3 & S3). apply pc_bind, pc_get. apply pc_bind.
  destruct (is_blankz (bget 0 s3)) eqn:Ee; cbn [negb]; [|destruct (_ || _); [apply pc_error|apply pc_panics]]. apply pc_ret. apply pc_bind, pc_gets, pc_ret.
  eapply (scanned_here _ _ _ _ _ _ w r'); [exact E|inversion Hs; discriminate|apply (blankz_ends _ _ _ _ H3); [lia|exact Ee]|exact Hs|apply (h_pos _ _ _ _ _ _ Hh)|apply (h_pos _ _ _ _ _ _ H3)|exact H3|eapply same_trans; eauto].
Qed.

(** ** Directives *)
Lemma digit_is s c d : bget 0 s = Some c -> is_digit (bget 0 s) = true -> as_digit (bget 0 s) = Some d -> 48 <= c <= 57 /\ d = c - 48 /\ breaks_line c = false.
Proof.
  intros E. rewrite E. unfold is_digit, as_digit, is_digit_c, Chars.in_range. intros D. destruct ((48 <=? c) && (c <=? 57)) eqn:R; [|discriminate].
  intros [= <-]. unfold breaks_line. lia.
Qed.
Lemma L_number m k p r s : H k p r s ->
  pc (scan_version_directive_number m) (fun v s' => exists w r', r = w ++ r' /\ digits w v /\ H 1 (p ++ w) r' s' /\ same s s') s.
Proof.
  intros Hh. unfold scan_version_directive_number. eapply pc_seq; [apply (L_cache _ _ 1 _ _ _ _ Hh)|]. cbn beta. intros _ s1 (H1 & S1). apply pc_bind.
  apply (pc_loop (fun '(v, n) s' => exists w r', r = w ++ r' /\ Forall (fun c => 48 <= c <= 57) w /\ v = fold_left (fun a c => a * 10 + (c - 48)) w 0 /\ (w = [] -> n = 0) /\
    H 1 (p ++ w) r' s' /\ same s s')).
  2:{ exists [], r. rewrite app_nil_r. split; [reflexivity|]. split; [constructor|]. split; [reflexivity|]. split; [reflexivity|]. split; [eapply H_less; [|exact H1]; lia|exact S1]. }
  intros [v n] s2 (w & r2 & -> & F & -> & N2 & H2 & S2). apply pc_bind, pc_get. destruct (is_digit (bget 0 s2)) eqn:E.
  - destruct (9 <? n + 1); [apply pc_error|]. destruct (as_digit (bget 0 s2)) as [d|] eqn:Ed; [|apply pc_panics].
    destruct (bget 0 s2) as [c|] eqn:Eb; [|discriminate]. rewrite <- Eb in E, Ed. destruct (digit_is _ _ _ Eb E Ed) as (D1 & -> & D3).
    destruct (H_head _ _ _ _ _ _ _ H2 Eb) as [r3 ->].
    eapply pc_seq; [apply (L_skip _ _ _ _ _ _ H2 D3)|]. cbn beta. intros _ s3 (c' & r' & [= <- <-] & _ & H3 & S3).
    eapply pc_seq; [apply (L_cache _ _ 1 _ _ _ _ H3)|]. cbn beta. intros _ s4 (H4 & S4). apply pc_ret. exists (w ++ [c]), r3. rewrite <- !app_assoc in *.
    split; [reflexivity|]. split; [apply Forall_app; split; [exact F|repeat constructor; lia]|]. split; [rewrite fold_left_app; reflexivity|].
    split; [intros X; destruct w; discriminate|]. split; [eapply H_less; [|exact H4]; lia|]. eapply same_trans; [exact S2|]. eapply same_trans; eauto.
  - apply pc_ret. destruct (n =? 0) eqn:En; [apply pc_error|]. apply pc_ret. exists w, r2. split; [reflexivity|]. split; [|auto].
    split; [intros ->; specialize (N2 eq_refl); lia|]. split; [exact F|reflexivity].
Qed.
Lemma L_blanks k p r s : H k p r s -> (1 <= k)%nat ->
  pc (skip_while (fun s => is_blank (bget 0 s))) (fun _ s' => exists w r', r = w ++ r' /\ Forall (fun c => blank c = true) w /\ H 1 (p ++ w) r' s' /\ same s s' /\ blank (hd 0 r') = false) s.
Proof.
  intros Hh Hk. eapply pc_conseq; [apply (L_skip_while _ _ _ (fun c => blank c = true) _ _ _ _ Hh Hk c_blank)|]. cbn beta.
  intros _ s' (w & r' & E & F & H1 & S1 & C). exists w, r'. repeat (split; [assumption|]). rewrite (H_get _ _ _ _ _ _ _ H1) in C by lia. destruct r' as [|c r']; [reflexivity|exact C].
Qed.
Lemma blankz_cases o : is_blankz o = true -> o = None \/ exists c, o = Some c /\ (blank c = true \/ breaks_line c = true).
Proof.
  destruct o as [c|]; [|auto]. intros E. right. exists c. split; [reflexivity|]. unfold is_blankz, is_breakz, is_break, is_z in E. rewrite breaks_is, blank_is.
  destruct (is_blank (Some c)); [auto|]. destruct (is_break_c c); [auto|discriminate].
Qed.
Lemma L_version m k p r s : H k p r s -> (forall c, nth_error r 0 = Some c -> blank c = true \/ breaks_line c = true) ->
  pc (scan_version_directive_value m) (fun '(ma, mi) s' => exists w r', r = w ++ r' /\ says (TVersionDirective ma mi) (lit "%YAML" ++ w) /\ H 1 (p ++ w) r' s' /\ same s s') s.
Proof.
  intros Hh Hb. unfold scan_version_directive_value. eapply pc_seq; [apply (L_cache _ _ 1 _ _ _ _ Hh)|]. cbn beta. intros _ s1 (H1 & S1).
  eapply pc_seq; [apply (L_blanks _ _ _ _ H1); lia|]. cbn beta. intros _ s2 (b & r2 & -> & Fb & H2 & S2 & Nb).
  eapply pc_seq; [apply (L_number _ _ _ _ _ H2)|]. cbn beta. intros ma s3 (x & r3 & -> & Dx & H3 & S3). apply pc_bind, pc_get.
  destruct (chk cDOT (bget 0 s3)) eqn:E; cbn [negb]; [|apply pc_error]. apply chk_some in E. destruct (H_head _ _ _ _ _ _ _ H3 E) as [r4 ->].
  eapply pc_seq; [apply (L_skip _ _ _ _ _ _ H3 eq_refl)|]. cbn beta. intros _ s4 (c & r' & [= <- <-] & _ & H4 & S4).
  eapply pc_seq; [apply (L_number _ _ _ _ _ H4)|]. cbn beta. intros mi s5 (y & r5 & -> & Dy & H5 & S5). apply pc_ret.
  exists (b ++ x ++ 46 :: y), r5. rewrite <- !app_assoc in *. cbn [app] in *. split; [rewrite <- ?app_assoc; reflexivity|]. split; [|split; [rewrite <- ?app_assoc; exact H5|]].
  - constructor; [|exact Dx|exact Dy]. split; [|exact Fb]. intros ->. cbn [app] in Hb. destruct Dx as (X1 & X2 & _). destruct x as [|c x]; [contradiction|].
    specialize (Hb c eq_refl). apply Forall_inv in X2. cbn beta in X2. unfold blank, breaks_line in Hb. lia.
  - eapply same_trans; [exact S1|]. eapply same_trans; [exact S2|]. eapply same_trans; [exact S3|]. eapply same_trans; eauto.
Qed.
Lemma L_tag_directive m k p r s : H k p r s -> (forall c, nth_error r 0 = Some c -> blank c = true \/ breaks_line c = true) ->
  pc (scan_tag_directive_value m) (fun '(h, u) s' => exists w r', r = w ++ r' /\ says (TTagDirective h u) (lit "%TAG" ++ w) /\ H 1 (p ++ w) r' s' /\ same s s') s.
Proof.
  intros Hh Hb. unfold scan_tag_directive_value. eapply pc_seq; [apply (L_cache _ _ 1 _ _ _ _ Hh)|]. cbn beta. intros _ s1 (H1 & S1).
  eapply pc_seq; [apply (L_blanks _ _ _ _ H1); lia|]. cbn beta. intros _ s2 (b & r2 & -> & Fb & H2 & S2 & Nb).
  eapply pc_seq; [apply (L_handle _ _ _ _ _ _ H2)|]. cbn beta. intros h s3 (w & r3 & -> & -> & H3 & S3 & D).
  eapply pc_seq; [apply (L_cache _ _ 1 _ _ _ _ H3)|]. cbn beta. intros _ s4 (H4 & S4). apply pc_bind, pc_get.
  destruct (is_blank (bget 0 s4)) eqn:E; cbn [negb]; [|apply pc_error]. destruct (c_blank _ E) as (c & Ec & Bc & _). destruct (H_head _ _ _ _ _ _ _ H4 Ec) as [r4 ->].
  eapply pc_seq; [apply (L_blanks _ _ _ _ H4); lia|]. cbn beta. intros _ s5 (b' & r5 & E5 & Fb' & H5 & S5 & Nb').
  assert (Nb0 : b' <> []) by (intros ->; cbn in E5; subst r5; cbn in Nb'; congruence). rewrite E5 in *.
  eapply pc_seq; [apply (L_uri0 _ _ _ _ _ _ _ H5)|]. cbn beta. intros u s6 (x & r6 & -> & U & Nx & H6 & S6).
  eapply pc_seq; [apply (L_cache _ _ 1 _ _ _ _ H6)|]. cbn beta. intros _ s7 (H7 & S7). apply pc_bind, pc_get.
  destruct (negb (is_blankz (bget 0 s7))); [apply pc_error|]. apply pc_ret.
  exists (b ++ (33 :: w) ++ b' ++ x), r6. split; [rewrite <- ?app_assoc; reflexivity|]. split; [|split].
  - constructor; [| |split; assumption|exact Nx|exact U].
    + split; [|exact Fb]. intros ->. cbn [app] in Hb. specialize (Hb 33 eq_refl). destruct Hb; discriminate.
    + destruct D as [(y & -> & Wy)|(_ & D & _)]; [right; exists y; split; [reflexivity|exact Wy]|left; rewrite (D eq_refl); reflexivity].
  - rewrite <- !app_assoc in H7. eapply H_less; [|exact H7]; lia.
  - eapply same_trans; [exact S1|]. eapply same_trans; [exact S2|]. eapply same_trans; [exact S3|]. eapply same_trans; [exact S4|]. eapply same_trans; [exact S5|]. eapply same_trans; eauto.
Qed.
Lemma L_directive k p r s : H k p r s -> m_col (position p) = 0 -> bget 0 s = Some 37 -> pc scan_directive (scanned p r s) s.
Proof.
  intros Hh H0 Hb. destruct (H_head _ _ _ _ _ _ _ Hh Hb) as [r1 ->]. unfold scan_directive. apply pc_bind, pc_gets.
  eapply pc_seq; [apply (L_skip _ _ _ _ _ _ Hh eq_refl)|]. cbn beta. intros _ s1 (c & r' & [= <- <-] & _ & H1 & S1).
  apply pc_bind. eapply pc_conseq with (Q := fun n s' => exists r', r1 = n ++ r' /\ H 1 (p ++ 37 :: n) r' s' /\ same s s' /\ (forall c, nth_error r' 0 = Some c -> blank c = true \/ breaks_line c = true)).
  { unfold scan_directive_name. eapply pc_seq; [apply (L_cache _ _ 1 _ _ _ _ H1)|]. cbn beta. intros _ s2 (H2 & S2).
    eapply pc_seq; [eapply (L_read_while _ _ _ (fun c => word_char c = true) [] _ _ _ _ H2); [lia|exact c_word]|]. cbn beta. intros n s3 (w & r3 & -> & F & -> & H3 & S3 & _).
    cbn [app]. apply pc_bind, pc_get. destruct (is_empty w); [apply pc_error|]. destruct (is_blankz (bget 0 s3)) eqn:E; cbn [negb]; [|apply pc_error]. apply pc_ret.
    rewrite <- app_assoc in H3. exists r3. split; [reflexivity|]. split; [exact H3|]. split; [eapply same_trans; [exact S1|]; eapply same_trans; eauto|].
    rewrite (H_get _ _ _ _ _ _ _ H3) in E by lia. intros c Ec. rewrite Ec in E. destruct (blankz_cases _ E) as [X|(c' & [= <-] & X)]; [discriminate X|exact X]. }
  cbn beta. intros n s2 (r2 & -> & H2 & S2 & B2). apply pc_bind.
  eapply pc_conseq with (Q := fun d s' => (exists a b, d = TVersionDirective a b \/ exists h u, d = TTagDirective h u) /\ exists w r', n ++ r2 = w ++ r' /\ says d (37 :: w) /\ H 1 (p ++ 37 :: w) r' s' /\ same s s').
  { destruct (str_eqb n (lit "YAML")) eqn:E1; [|destruct (str_eqb n (lit "TAG")) eqn:E2; [|apply pc_error]].
    - apply str_eqb_eq in E1. subst n. eapply pc_seq; [apply (L_version _ _ _ _ _ H2 B2)|]. cbn beta. intros [ma mi] s3 (w & r3 & -> & Sw & H3 & S3). apply pc_ret.
      split; [eauto|]. exists (lit "YAML" ++ w), r3. split; [rewrite <- ?app_assoc; reflexivity|]. split; [exact Sw|]. split; [rewrite <- app_assoc in H3; exact H3|eapply same_trans; eauto].
    - apply str_eqb_eq in E2. subst n. eapply pc_seq; [apply (L_tag_directive _ _ _ _ _ H2 B2)|]. cbn beta. intros [h u] s3 (w & r3 & -> & Sw & H3 & S3). apply pc_ret.
      split; [exists 0%Z, 0%Z; eauto|]. exists (lit "TAG" ++ w), r3. split; [rewrite <- ?app_assoc; reflexivity|]. split; [exact Sw|]. split; [rewrite <- app_assoc in H3; exact H3|eapply same_trans; eauto]. }
  cbn beta. intros d s3 (Dd & w & r3 & E3 & Sw & H3 & S3). rewrite E3 in *. clear B2 H2 E3 S2 H1 S1 n r2.
  apply pc_bind, pc_gets. eapply pc_seq; [apply (L_cache _ _ 1 _ _ _ _ H3)|]. cbn beta. intros _ s4 (H4 & S4).
  eapply pc_seq; [apply (L_blanks _ _ _ _ H4); lia|]. cbn beta. intros _ s5 (b & r5 & -> & Fb & H5 & S5 & Nb). apply pc_bind, pc_get.
  pose proof (skips_filler _ _ _ _ _ (skips_refl (p ++ 37 :: w) (b ++ r5)) (blank_filler _ Fb)) as Sk. cbn [app] in Sk.
  eapply pc_seq; [apply (L_comment rest T 1 (p ++ 37 :: w) (b ++ r5) b _ _ _ H5 (le_n _) Sk eq_refl)|]. cbn beta. intros _ s6 (x & r6 & -> & Dx & Sk6 & H6 & S6). apply pc_bind, pc_get.
  assert (S06 : same s s6) by (eapply same_trans; [exact S3|]; eapply same_trans; [exact S4|]; eapply same_trans; eauto).
  destruct (is_breakz (bget 0 s6)) eqn:E6; [|apply pc_error]. apply pc_bind.
  assert (De : ends (fun c => filler c || (c =? 35)) (b ++ x ++ r6)).
  { destruct b as [|c b]; [|apply Forall_inv in Fb; cbn [app ends]; unfold filler; rewrite Fb; reflexivity]. destruct Dx as [->|(y & -> & _)]; [|reflexivity].
    pose proof (at_break _ _ _ _ _ _ H6 (le_n _) E6) as B. destruct r6 as [|c r6]; [exact Logic.I|]. cbn in B |- *. unfold filler. rewrite B, orb_true_r. reflexivity. }
  eapply pc_conseq with (Q := fun _ s' => exists g r', skips (p ++ 37 :: w) (b ++ x ++ r6) g r' /\ H 0 ((p ++ 37 :: w) ++ g) r' s' /\ same s s').
  { destruct (is_break (bget 0 s6)) eqn:E7; cbn [when].
    - eapply pc_seq; [apply (L_cache _ _ 2 _ _ _ _ H6)|]. cbn beta. intros _ s7 (H7 & S7).
      eapply pc_conseq; [apply (L_skip_break _ _ _ _ _ _ H7); [lia|apply (is_break_head _ _ _ _ _ _ H6 E7)]|]. cbn beta. intros _ s8 (br & r8 & -> & B1 & _ & H8 & S8).
      exists ((b ++ x) ++ br), r8. split; [apply skips_filler; [exact Sk6|apply (break_filler _ B1)]|]. split; [rewrite <- !app_assoc in *; eapply H_less; [|exact H8]; lia|].
      eapply same_trans; [exact S06|]. eapply same_trans; eauto.
    - apply pc_ret. exists (b ++ x), r6. split; [exact Sk6|]. split; [rewrite <- !app_assoc in *; eapply H_less; [|exact H6]; lia|exact S06]. }
  cbn beta. intros _ s7 (g & r7 & Sk7 & H7 & S7). apply pc_ret. exists (37 :: w), g, r7. destruct Sk7 as [Eg Sk7]. cbn [t_data t_start t_end].
  split; [cbn [app]; rewrite <- Eg; reflexivity|]. split; [discriminate|]. split; [exact Sw|]. split; [apply (h_pos _ _ _ _ _ _ Hh)|]. split; [apply (h_pos _ _ _ _ _ _ H3)|].
  split; [rewrite <- Eg; split; [exact Eg|exact Sk7]|]. split; [rewrite <- app_assoc in H7; exact H7|]. split; [exact S7|]. rewrite <- Eg. destruct Dd as (? & ? & [->|(? & ? & ->)]); exact (conj H0 De).
Qed.
End text.
