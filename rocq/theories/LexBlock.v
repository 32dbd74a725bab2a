(** LexBlock.v -- the text of block scalars. *)
From Coq Require Import Lia ZifyBool ZifyNat ZifyN Bool.
From Verif Require Import Base Utf Chars State Reader Scanner Wp ReaderFacts ReadFacts ScanFacts Spec_Lexical LexBase LexScan LexNames LexQuoted.
Open Scope N_scope.

(** ** Columns *)
Lemma spaces_S n : spaces (S n) = spaces n ++ [32].
Proof. unfold spaces. induction n as [|n IH]; [reflexivity|]. cbn [repeat app] in *. rewrite IH at 1. reflexivity. Qed.
Lemma spaces_fillers k : Forall (fun c => filler c = true) (spaces k). Proof. induction k; cbn; constructor; auto. Qed.
Lemma spaces_blank k : Forall (fun c => blank c = true) (spaces k). Proof. induction k; cbn; constructor; auto. Qed.
Lemma all_spaces (w : str) : Forall (fun c => c = 32) w -> w = spaces (length w).
Proof. induction 1 as [|c w -> _ IH]; [reflexivity|]. cbn. f_equal. exact IH. Qed.
Lemma col_spaces p k : m_col (position (p ++ spaces k)) = m_col (position p) + N.of_nat k.
Proof.
  induction k as [|k IH]; [cbn; rewrite app_nil_r; lia|]. rewrite spaces_S, app_assoc. destruct (position_plain (p ++ spaces k) 32 eq_refl) as [E _].
  etransitivity; [exact (f_equal m_col E)|]. cbn [advance m_col]. rewrite IH. lia.
Qed.
Lemma col_break (p b : str) : In b break_texts -> m_col (position (p ++ b)) = 0.
Proof.
  assert (X : forall q c, breaks_line c = true -> m_col (position (q ++ [c])) = 0).
  { intros q c Hc. unfold position. fold (mk (q ++ [c])). rewrite mk_app. cbn [fold_left]. destruct (mk q) as [m cr]. cbn [step_mark]. destruct (cr && (c =? 10)); [reflexivity|]. rewrite Hc. reflexivity. }
  cbn. intros [<-|[<-|[<-|[<-|[<-|[<-|[]]]]]]]; try (apply X; reflexivity). change [13; 10] with ([13] ++ [10]). rewrite app_assoc. apply X. reflexivity.
Qed.

(** ** Empty lines *)
Lemma empty_mono n m e : (n <= m)%nat -> empty_lines n e -> empty_lines m e.
Proof. intros L X. induction X as [|k b e Hk B C _ IH]; [constructor|]. constructor; auto. lia. Qed.
Lemma hd_app_ne (a b : str) : a <> [] -> hd 0 (a ++ b) = hd 0 a. Proof. destruct a; [contradiction|reflexivity]. Qed.
Lemma empty_snoc n e k b : empty_lines n e -> forall p, (k <= n)%nat -> In b break_texts -> (snd (mk (p ++ e)) = true -> hd 0 (spaces k ++ b) <> 10) -> empty_lines n (e ++ spaces k ++ b).
Proof.
  induction 1 as [|j c e Hj C D E IH]; intros p Hk B Hc.
  - cbn [app]. rewrite <- (app_nil_r b). constructor; [exact Hk|exact B|intros _; cbn; discriminate|constructor].
  - rewrite <- !app_assoc. constructor; [exact Hj|exact C| |].
    + intros ->. destruct e as [|z e].
      * cbn [app]. apply Hc. rewrite app_nil_r, app_assoc. apply mk_cr.
      * cbn. apply D. reflexivity.
    + apply (IH (p ++ spaces j ++ c)); auto. rewrite <- !app_assoc. exact Hc.
Qed.

Lemma breaks_spaces j b : breaks_of (spaces j ++ b) = breaks_of b. Proof. induction j as [|j IH]; [reflexivity|exact IH]. Qed.

(** ** Values *)
Definition dfl := Mk_line [] [] [].
Lemma block_value_snoc lit ls l' : block_value lit (ls ++ [l']) =
  match ls with [] => bl_text l' | _ => block_value lit ls ++ between lit (last ls dfl) l' ++ bl_text l' end.
Proof.
  induction ls as [|l ls IH]; [cbn; rewrite app_nil_r; reflexivity|]. cbn [app block_value]. rewrite IH.
  destruct ls as [|l2 ls]; [cbn; rewrite app_nil_r; reflexivity|]. cbn [app]. change (last (l :: l2 :: ls) dfl) with (last (l2 :: ls) dfl). rewrite <- !app_assoc. reflexivity.
Qed.
Lemma last_snoc {A} (l : list A) a d : last (l ++ [a]) d = a.
Proof. induction l as [|x l IH]; [reflexivity|]. cbn [app]. destruct (l ++ [a]) as [|y z] eqn:E; [destruct l; discriminate|]. cbn [last]. exact IH. Qed.

Section text.
Variable rest : list byte.
Variable T : str.
Notation H := (H rest T).

(** Spaces up to the indentation. *)
Lemma L_spaces ind k p r s : H k p r s -> (1 <= k)%nat ->
  pc (skip_while (fun s => ((ind =? 0)%Z || (bcol s <? ind)%Z) && is_space (bget 0 s)))
    (fun _ s' => exists j r', r = spaces j ++ r' /\ H 1 (p ++ spaces j) r' s' /\ same s s' /\ (ind = 0%Z \/ j = 0%nat \/ (bcol s' <= ind)%Z) /\ (ind = 0%Z -> hd 0 r' <> 32)) s.
Proof.
  intros Hh Hk. unfold skip_while.
  apply (pc_loop (fun (_ : unit) s' => exists j r', r = spaces j ++ r' /\ H 1 (p ++ spaces j) r' s' /\ same s s' /\ (ind = 0%Z \/ j = 0%nat \/ (bcol s' <= ind)%Z))).
  2:{ exists 0%nat, r. cbn [spaces repeat app]. rewrite app_nil_r. split; [reflexivity|]. split; [eapply H_less; eauto|]. split; [reflexivity|auto]. }
  intros _ s1 (j & r1 & -> & H1 & S1 & D1). apply pc_bind, pc_get. destruct (_ && _) eqn:E.
  2:{ apply pc_ret. exists j, r1. repeat (split; [auto; fail|]). intros ->. cbn [Z.eqb orb andb] in E. rewrite (H_get _ _ _ _ _ _ _ H1) in E by lia. destruct r1 as [|c r1]; [cbn; lia|]. cbn in E |- *. lia. }
  apply andb_prop in E. destruct E as [E E']. apply chk_some in E'. destruct (H_head _ _ _ _ _ _ _ H1 E') as [r2 ->].
  eapply pc_seq; [apply (L_skip _ _ _ _ _ _ H1 eq_refl)|]. cbn beta. intros _ s2 (c' & r' & [= <- <-] & _ & H2 & S2).
  eapply pc_seq; [apply (L_cache _ _ 1 _ _ _ _ H2)|]. cbn beta. intros _ s3 (H3 & S3). apply pc_ret. exists (S j), r2. rewrite spaces_S, app_assoc, <- app_assoc. split; [reflexivity|].
  split; [eapply H_less; [|exact H3]; lia|]. split; [eapply same_trans; [exact S1|]; eapply same_trans; eauto|].
  destruct (ind =? 0)%Z eqn:Ei; [left; lia|]. right. right. cbn [orb] in E. unfold bcol in *. rewrite (h_pos _ _ _ _ _ _ H3). rewrite (h_pos _ _ _ _ _ _ H1) in E.
  destruct (position_plain (p ++ spaces j) 32 eq_refl) as [X _]. rewrite X. cbn [advance m_col]. lia.
Qed.

(** ** Empty lines *)
Lemma L_empty ind br m em k p r s : H k p r s -> (0 <= ind)%Z -> m_col (position p) = 0 \/ r = [] ->
  pc (scan_block_scalar_breaks ind br m em) (fun '(ind', br', em') s' => exists e j r', r = e ++ spaces j ++ r' /\ H 1 (p ++ e ++ spaces j) r' s' /\ same s s' /\
    empty_lines (Z.to_nat ind') e /\ br' = br ++ breaks_of e /\ em' = position (p ++ e) /\ (if (ind =? 0)%Z then (1 <= ind')%Z else ind' = ind) /\
    breaks_line (hd 0 r') = false /\ (r' = [] \/ bcol s' = Z.of_nat j) /\ (ind = 0%Z -> hd 0 r' <> 32)) s.
Proof.
  intros Hh Hi Hc. unfold scan_block_scalar_breaks. apply pc_bind, pc_gets. apply pc_bind.
  apply (pc_loop (fun '(mx, br', em') s' => exists e r', r = e ++ r' /\ H 0 (p ++ e) r' s' /\ same s s' /\ empty_lines (Z.to_nat (if (ind =? 0)%Z then mx else ind)) e /\ br' = br ++ breaks_of e /\
    em' = position (p ++ e) /\ (m_col (position (p ++ e)) = 0 \/ r' = []))).
  2:{ exists [], r. rewrite !app_nil_r. split; [reflexivity|]. split; [eapply H_less; [|exact Hh]; lia|]. split; [reflexivity|]. split; [constructor|]. split; [reflexivity|].
      split; [apply (h_pos _ _ _ _ _ _ Hh)|exact Hc]. }
  clear Hc. intros [[mx br'] em'] s1 (e & r1 & -> & H1 & S1 & Ee & -> & -> & Hc).
  eapply pc_seq; [apply (L_cache _ _ 1 _ _ _ _ H1)|]. cbn beta. intros _ s2 (H2 & S2).
  eapply pc_seq; [apply (L_spaces ind _ _ _ _ H2); lia|]. cbn beta. intros _ s3 (j & r3 & -> & H3 & S3 & C3 & N3). apply pc_bind, pc_get. cbv zeta.
  assert (S03 : same s s3) by (eapply same_trans; [exact S1|]; eapply same_trans; eauto).
  assert (Cj : r3 = [] \/ bcol s3 = Z.of_nat j).
  { destruct Hc as [Hc|Hc]; [|left; destruct j; [exact Hc|discriminate Hc]]. right. unfold bcol. rewrite (h_pos _ _ _ _ _ _ H3), col_spaces, Hc. lia. }
  set (mx' := if (mx <? bcol s3)%Z then bcol s3 else mx). assert (Lm : (mx <= mx')%Z /\ (bcol s3 <= mx')%Z) by (unfold mx'; destruct (mx <? bcol s3)%Z eqn:X; lia). clearbody mx'.
  destruct (_ && is_tab (bget 0 s3)); [apply pc_error|].
  destruct (is_break (bget 0 s3)) eqn:E3; cbn [negb].
  - (* a line break *)
    pose proof (is_break_head _ _ _ _ _ _ H3 E3) as Hb.
    eapply pc_seq; [apply (L_cache _ _ 2 _ _ _ _ H3)|]. cbn beta. intros _ s4 (H4 & S4).
    eapply pc_seq; [apply (L_read_break _ _ _ _ _ _ (br ++ breaks_of e) H4); [lia|exact Hb]|]. cbn beta. intros t2 s5 (b & r5 & -> & B1 & B2 & -> & H5 & S5). apply pc_bind, pc_gets, pc_ret.
    assert (Nb : b <> []) by apply (break_filler _ B1). rewrite <- !app_assoc in H5.
    assert (Hcr : snd (mk (p ++ e)) = true -> hd 0 (spaces j ++ b) <> 10).
    { intros X. pose proof (h_cr _ _ _ _ _ _ H1 X) as Y. rewrite app_assoc, hd_app_ne in Y; [exact Y|]. intros Z. apply app_eq_nil in Z. tauto. }
    exists (e ++ spaces j ++ b), r5. rewrite <- !app_assoc. split; [reflexivity|]. split; [eapply H_less; [|exact H5]; lia|].
    split; [eapply same_trans; [exact S03|]; eapply same_trans; eauto|]. split; [|split; [|split; [apply (h_pos _ _ _ _ _ _ H5)|]]].
    + assert (Ee' : empty_lines (Z.to_nat (if (ind =? 0)%Z then mx' else ind)) e) by (eapply empty_mono; [|exact Ee]; destruct (ind =? 0)%Z; lia).
      apply (empty_snoc _ _ _ _ Ee' p); [|exact B1|exact Hcr].
      destruct Cj as [Cj|Cj]; [destruct b; [contradiction|discriminate Cj]|]. destruct (ind =? 0)%Z eqn:Ei; [lia|].
      destruct C3 as [C3|[C3|C3]]; lia.
    + f_equal. rewrite (breaks_app p e (spaces j ++ b) Hcr). apply (f_equal (app (breaks_of e))). symmetry. apply breaks_spaces.
    + left. rewrite !app_assoc. apply col_break, B1.
  - apply pc_ret. apply pc_bind, pc_get. apply pc_ret. exists e, j, r3. rewrite <- app_assoc in H3. split; [reflexivity|]. split; [exact H3|]. split; [exact S03|].
    split; [|split; [reflexivity|split; [reflexivity|split; [|split; [|split; [exact Cj|exact N3]]]]]].
    + eapply empty_mono; [|exact Ee]. destruct (ind =? 0)%Z; [|lia]. set (a := (indent s3 + 1)%Z). destruct (mx' <? a)%Z eqn:X; [destruct (a <? 1)%Z eqn:Y|destruct (mx' <? 1)%Z eqn:Y]; lia.
    + destruct (ind =? 0)%Z; [|reflexivity]. set (a := (indent s3 + 1)%Z). destruct (mx' <? a)%Z eqn:X; [destruct (a <? 1)%Z eqn:Y|destruct (mx' <? 1)%Z eqn:Y]; lia.
    + rewrite (H_get _ _ _ _ _ _ _ H3) in E3 by lia. destruct r3 as [|c r3]; [reflexivity|]. cbn in E3 |- *. rewrite breaks_is. exact E3.
Qed.

(** ** The lines *)
Definition so_far (literal : bool) (e0 : str) (ls : list block_line) (x lbk tr : str) (lb : bool) : Prop :=
  match ls with
  | [] => x = [] /\ lbk = [] /\ tr = breaks_of e0 /\ lb = false
  | _ => let l := last ls dfl in
         x = breaks_of e0 ++ block_value literal ls /\ lbk = breaks_of (bl_break l) /\ tr = breaks_of (bl_empty l) /\ lb = blank_start (bl_text l)
  end.
Lemma so_far_snoc literal n e0 ls x lbk tr lb l' tb x' :
  so_far literal e0 ls x lbk tr lb -> Forall (line_ok n) ls -> tb = blank_start (bl_text l') ->
  x' = (if negb literal && starts_with cLF lbk && negb lb && negb tb then (if is_empty tr then x ++ [cSP] else x) else x ++ lbk) ++ tr ->
  so_far literal e0 (ls ++ [l']) (x' ++ bl_text l') (breaks_of (bl_break l')) (breaks_of (bl_empty l')) tb.
Proof.
  intros X F -> ->. unfold so_far. destruct (ls ++ [l']) as [|a t] eqn:E; [destruct ls; discriminate|]. rewrite <- E. rewrite last_snoc. cbv zeta.
  split; [|auto]. clear a t E. rewrite block_value_snoc. destruct ls as [|l0 ls].
  - destruct X as (-> & -> & -> & ->). cbn [starts_with]. rewrite andb_false_r. reflexivity.
  - unfold so_far in X. cbv zeta in X. destruct X as (-> & -> & -> & ->).
    assert (L : line_ok n (last (l0 :: ls) dfl)).
    { destruct ls as [|l1 ls] using rev_ind; [exact (Forall_inv F)|]. change (l0 :: ls ++ [l1]) with ((l0 :: ls) ++ [l1]) in F |- *. rewrite last_snoc. apply Forall_app in F. exact (Forall_inv (proj2 F)). }
    set (l := last (l0 :: ls) dfl) in *. destruct L as (_ & _ & L3 & L4 & _). destruct (breaks_break _ L3) as [c Ec].
    assert (Eb : breaks_of (bl_break l ++ bl_empty l) = breaks_of (bl_break l) ++ breaks_of (bl_empty l)).
    { apply (breaks_of_app (length (bl_break l))); [apply le_n|]. intros a' Ea. apply L4. rewrite Ea in L3. cbn in L3.
      destruct L3 as [L3|[L3|[L3|[L3|[L3|[L3|[]]]]]]]; pose proof (f_equal (@rev N) L3) as R; rewrite rev_app_distr in R; try discriminate R. cbn in R. injection R as R.
      rewrite <- L3 in Ea. exact Ea. }
    rewrite !app_assoc. f_equal. rewrite <- !app_assoc. unfold between. destruct literal; cbn [negb andb].
    + rewrite <- !app_assoc. reflexivity.
    + destruct (blank_start (bl_text l)); cbn [negb andb]; [rewrite andb_false_r; cbn [andb]; rewrite <- !app_assoc; reflexivity|].
      destruct (blank_start (bl_text l')); cbn [negb andb]; [rewrite !andb_false_r; rewrite <- !app_assoc; reflexivity|]. rewrite !andb_true_r.
      unfold folded. rewrite Eb, Ec. cbn [app starts_with]. change (c =? cLF) with (c =? 10). destruct (c =? 10) eqn:E10; destruct (breaks_of (bl_empty l)) as [|d tr]; cbn [is_empty]; rewrite <- ?app_assoc; cbn [app]; rewrite ?app_nil_r; reflexivity.
Qed.
Lemma L_lines literal m n e0 k j p r s em : H k (p ++ e0 ++ spaces j) r s -> (1 <= k)%nat -> (1 <= n)%nat -> em = position (p ++ e0) ->
  breaks_line (hd 0 r) = false -> (r = [] \/ bcol s = Z.of_nat j) ->
  pc (block_scalar_lines literal m (Z.of_nat n) (breaks_of e0) em) (fun '(x, lbk, tr, em') s' => exists ls j' r' lb, spaces j ++ r = flat_map (line_source n) ls ++ spaces j' ++ r' /\
    H 0 (p ++ e0 ++ flat_map (line_source n) ls ++ spaces j') r' s' /\ same s s' /\ Forall (line_ok n) ls /\ em' = position (p ++ e0 ++ flat_map (line_source n) ls) /\
    so_far literal e0 ls x lbk tr lb /\ (forall l, hd_error ls = Some l -> hd 0 (bl_text l) = hd 0 r)) s.
Proof.
  intros Hh Hk Hn Hem Hb Hj. unfold block_scalar_lines. apply pc_bind.
  apply (pc_loop (fun '(x, lbk, tr, lb, ind, em') s' => ind = Z.of_nat n /\ exists ls j' r', spaces j ++ r = flat_map (line_source n) ls ++ spaces j' ++ r' /\
    H 1 (p ++ e0 ++ flat_map (line_source n) ls ++ spaces j') r' s' /\ same s s' /\ Forall (line_ok n) ls /\ em' = position (p ++ e0 ++ flat_map (line_source n) ls) /\
    so_far literal e0 ls x lbk tr lb /\ breaks_line (hd 0 r') = false /\ (r' = [] \/ bcol s' = Z.of_nat j') /\ (forall l, hd_error ls = Some l -> hd 0 (bl_text l) = hd 0 r) /\ (ls = [] -> r' = r))).
  2:{ split; [reflexivity|]. exists [], j, r. cbn [flat_map app]. rewrite app_nil_r. split; [reflexivity|]. split; [eapply H_less; [|exact Hh]; lia|]. split; [reflexivity|]. split; [constructor|].
      split; [exact Hem|]. split; [repeat split|]. split; [exact Hb|]. split; [exact Hj|]. split; [discriminate|reflexivity]. }
  clear Hem Hb Hj. intros [[[[[x lbk] tr] lb] ind] em'] s1 (-> & ls & j1 & r1 & E1 & H1 & S1 & F1 & -> & X1 & Hb & Hj & L1 & L2). apply pc_bind, pc_get.
  destruct (negb (bcol s1 =? Z.of_nat n)%Z || is_z (bget 0 s1)) eqn:Ex.
  { apply pc_ret, pc_ret. exists ls, j1, r1, lb. split; [exact E1|]. split; [eapply H_less; [|exact H1]; lia|auto 7]. }
  apply orb_false_elim in Ex. destruct Ex as [Ex Ez]. apply negb_false_iff in Ex. rewrite (H_get _ _ _ _ _ _ _ H1) in Ez by lia.
  destruct r1 as [|c r1]; [discriminate Ez|]. cbn [hd] in Hb. destruct Hj as [Hj|Hj]; [discriminate|]. assert (Ej : j1 = n) by lia. subst j1.
  assert (Eb : is_blank (bget 0 s1) = blank c) by (rewrite (H_get _ _ _ _ _ _ _ H1) by lia; symmetry; apply blank_is). cbv zeta.
  eapply pc_seq; [apply (L_read_while _ _ _ (fun c => breaks_line c = false) _ _ _ _ _ H1 (le_n _)); intros s0 E0; exact (c_nobreak s0 E0)|]. cbn beta.
  intros y s2 (w & r2 & Ew & Fw & Ey & H2 & S2 & C2). apply negb_false_iff in C2. pose proof (at_break _ _ _ _ _ _ H2 (le_n _) C2) as B2.
  assert (Nw : exists w', w = c :: w').
  { destruct w as [|a w]; [cbn in Ew; subst r2; cbn in B2; congruence|]. injection Ew as <- _. eauto. }
  destruct Nw as [w' ->].
  eapply pc_seq; [apply (L_cache _ _ 2 _ _ _ _ H2)|]. cbn beta. intros _ s3 (H3 & S3).
  destruct r2 as [|d r2].
  { apply pc_bind. unfold pc, read_line_break. destruct (text_buffer _ _ _ (h_text _ _ _ _ _ _ H3)) as [z Ez']. symmetry in Ez'. apply app_eq_nil in Ez'. destruct Ez' as [-> _]. exact Logic.I. }
  eapply pc_seq; [apply (L_read_break _ _ _ _ _ _ [] H3); [lia|exact B2]|]. cbn beta. intros lb2 s4 (b & r4 & Er & B3 & B4 & -> & H4 & S4). cbn [app].
  eapply pc_seq; [apply (L_empty (Z.of_nat n) [] m _ _ _ _ _ H4); [lia|left; apply col_break, B3]|]. cbn beta.
  intros [[ind' tr'] em2] s5 (e & j5 & r5 & -> & H5 & S5 & Ee & -> & -> & Hi & Hb5 & Hj5 & _). cbn [app]. apply pc_ret.
  assert (Hi' : ind' = Z.of_nat n) by (destruct (Z.of_nat n =? 0)%Z eqn:Z0; [lia|exact Hi]). subst ind'. split; [reflexivity|]. rewrite Nat2Z.id in Ee.
  set (l := Mk_line (c :: w') b e). exists (ls ++ [l]), j5, r5.
  assert (Ef : flat_map (line_source n) (ls ++ [l]) = flat_map (line_source n) ls ++ spaces n ++ (c :: w') ++ b ++ e).
  { rewrite flat_map_app. cbn [flat_map]. rewrite app_nil_r. reflexivity. }
  assert (Lf : forall l', hd_error (ls ++ [l]) = Some l' -> hd 0 (bl_text l') = hd 0 r).
  { intros l'. destruct ls as [|l1 ls]; [|apply (L1 l')]. intros [= <-]. rewrite <- (L2 eq_refl). reflexivity. }
  assert (Ln : ls ++ [l] = [] -> r5 = r) by (intros Z; destruct ls; discriminate Z).
  rewrite Ef. split; [|split; [|split; [|split; [|split; [|split; [|auto]]]]]].
  - rewrite E1, Ew, Er, <- !app_assoc. reflexivity.
  - rewrite <- !app_assoc in H5. cbn [app] in H5 |- *. rewrite <- ?app_assoc. cbn [app]. rewrite <- ?app_assoc. exact H5.
  - eapply same_trans; [exact S1|]. eapply same_trans; [exact S2|]. eapply same_trans; [exact S3|]. eapply same_trans; eauto.
  - apply Forall_app. split; [exact F1|]. apply Forall_cons; [|apply Forall_nil]. split; [discriminate|]. split; [exact Fw|]. split; [exact B3|]. split; [|exact Ee].
    cbn [bl_break bl_empty]. intros Z. specialize (B4 Z). destruct e as [|z e]; [cbn; discriminate|exact B4].
  - rewrite <- !app_assoc. reflexivity.
  - rewrite Eb in Ey |- *. rewrite Ey. apply (so_far_snoc literal n e0 ls x lbk tr lb l (blank c) _ X1 F1); reflexivity.
Qed.

(** ** The header *)
Definition chomp_of (z : Z) : chomping := if (z =? 1)%Z then Keep else if (z =? -1)%Z then Strip else Clip.
Definition incr_of (z : Z) : option N := if (z =? 0)%Z then None else Some (Z.to_N z).
Lemma L_digit m k p r s : H k p r s -> is_digit (bget 0 s) = true ->
  pc (scan_block_header_digit m) (fun z s' => exists d r', r = d :: r' /\ 49 <= d <= 57 /\ z = Z.of_N (d - 48) /\ H (k - 1) (p ++ [d]) r' s' /\ same s s') s.
Proof.
  intros Hh Hd. unfold scan_block_header_digit. apply pc_bind, pc_get. destruct (chk c0 (bget 0 s)) eqn:E0; [apply pc_error|].
  destruct (as_digit (bget 0 s)) as [v|] eqn:Ev; [|apply pc_panics]. destruct (bget 0 s) as [c|] eqn:Eb; [|discriminate]. rewrite <- Eb in Hd, Ev.
  destruct (digit_is _ _ _ Eb Hd Ev) as (D1 & -> & D3). destruct (H_head _ _ _ _ _ _ _ Hh Eb) as [r1 ->].
  eapply pc_seq; [apply (L_skip _ _ _ _ _ _ Hh D3)|]. cbn beta. intros _ s1 (c' & r' & [= <- <-] & _ & H1 & S1). apply pc_ret. exists c, r1. split; [reflexivity|].
  split; [cbn in E0; lia|auto].
Qed.
Lemma chomp_char s : chk cPLUS (bget 0 s) || chk cMINUS (bget 0 s) = true ->
  exists c, bget 0 s = Some c /\ breaks_line c = false /\ In (c, chomp_of (if chk cPLUS (bget 0 s) then 1 else -1)%Z) [(43, Keep); (45, Strip)].
Proof.
  destruct (chk cPLUS (bget 0 s)) eqn:E; intros E'; [apply chk_some in E; exists 43; cbn; auto|]. cbn [orb] in E'. apply chk_some in E'. exists 45. cbn. auto.
Qed.
Lemma L_header m k p r s : H k p r s -> (1 <= k)%nat ->
  pc (scan_block_header m) (fun '(ch, inc) s' => exists h r', r = h ++ r' /\ block_header h (chomp_of ch) (incr_of inc) /\ (0 <= inc)%Z /\ In ch [1; -1; 0]%Z /\ H 0 (p ++ h) r' s' /\ same s s') s.
Proof.
  intros Hh Hk. unfold scan_block_header. apply pc_bind, pc_get.
  assert (Dg : forall d, 49 <= d <= 57 -> incr_of (Z.of_N (d - 48)) = Some (d - 48)).
  { intros d Hd. unfold incr_of. destruct (Z.of_N (d - 48) =? 0)%Z eqn:E; [lia|]. f_equal. lia. }
  assert (Ic : forall b : bool, In (if b then 1 else -1)%Z [1; -1; 0]%Z) by (intros []; cbn; auto).
  destruct (chk cPLUS (bget 0 s) || chk cMINUS (bget 0 s)) eqn:E1.
  - destruct (chomp_char s E1) as (c & Ec & Nc & Ch). set (ch := if chk cPLUS (bget 0 s) then 1%Z else (-1)%Z) in *. assert (Hch : In ch [1; -1; 0]%Z) by apply Ic. clearbody ch. cbv zeta.
    destruct (H_head _ _ _ _ _ _ _ Hh Ec) as [r1 ->].
    eapply pc_seq; [apply (L_skip _ _ _ _ _ _ Hh Nc)|]. cbn beta. intros _ s1 (c' & r' & [= <- <-] & _ & H1 & S1).
    eapply pc_seq; [apply (L_cache _ _ 1 _ _ _ _ H1)|]. cbn beta. intros _ s2 (H2 & S2). apply pc_bind, pc_get. destruct (is_digit (bget 0 s2)) eqn:E2.
    + eapply pc_seq; [apply (L_digit _ _ _ _ _ H2 E2)|]. cbn beta. intros z s3 (d & r3 & -> & Rd & -> & H3 & S3). apply pc_ret. rewrite <- app_assoc in H3.
      exists [c; d], r3. split; [reflexivity|]. rewrite (Dg d Rd). split; [apply BH_both; assumption|]. split; [lia|]. split; [exact Hch|].
      split; [eapply H_less; [|exact H3]; lia|eapply same_trans; [exact S1|]; eapply same_trans; eauto].
    + apply pc_ret. exists [c], r1. split; [reflexivity|]. split; [apply BH_chomp; exact Ch|]. split; [lia|]. split; [exact Hch|].
      split; [eapply H_less; [|exact H2]; lia|eapply same_trans; eauto].
  - destruct (is_digit (bget 0 s)) eqn:E2.
    + eapply pc_seq; [apply (L_digit _ _ _ _ _ Hh E2)|]. cbn beta. intros z s3 (d & r3 & -> & Rd & -> & H3 & S3).
      eapply pc_seq; [apply (L_cache _ _ 1 _ _ _ _ H3)|]. cbn beta. intros _ s4 (H4 & S4). apply pc_bind, pc_get.
      destruct (chk cPLUS (bget 0 s4) || chk cMINUS (bget 0 s4)) eqn:E4.
      * destruct (chomp_char s4 E4) as (c & Ec & Nc & Ch). set (ch := if chk cPLUS (bget 0 s4) then 1%Z else (-1)%Z) in *. assert (Hch : In ch [1; -1; 0]%Z) by apply Ic. clearbody ch. cbv zeta.
        destruct (H_head _ _ _ _ _ _ _ H4 Ec) as [r1 ->].
        eapply pc_seq; [apply (L_skip _ _ _ _ _ _ H4 Nc)|]. cbn beta. intros _ s5 (c' & r' & [= <- <-] & _ & H5 & S5). apply pc_ret. rewrite <- app_assoc in H5.
        exists [d; c], r1. split; [reflexivity|]. rewrite (Dg d Rd). split; [apply BH_both2; assumption|]. split; [lia|]. split; [exact Hch|].
        split; [eapply H_less; [|exact H5]; lia|eapply same_trans; [exact S3|]; eapply same_trans; eauto].
      * apply pc_ret. exists [d], r3. split; [reflexivity|]. rewrite (Dg d Rd). split; [apply BH_digit; exact Rd|]. split; [lia|]. split; [cbn; auto|].
        split; [eapply H_less; [|exact H4]; lia|eapply same_trans; eauto].
    + apply pc_ret. exists [], r. rewrite app_nil_r. split; [reflexivity|]. split; [apply BH_none|]. split; [lia|]. split; [cbn; auto|]. split; [eapply H_less; [|exact Hh]; lia|reflexivity].
Qed.

Lemma L_block (literal : bool) k p r s : H k p r s -> flow_level s = 0 -> bget 0 s = Some (if literal then 124 else 62) -> pc (scan_block_scalar literal) (scanned rest T p r s) s.
Proof.
  intros Hh Hfl Hb. destruct (H_head _ _ _ _ _ _ _ Hh Hb) as [r0 ->]. unfold scan_block_scalar. apply pc_bind, pc_gets. set (i := if literal then 124 else 62) in *.
  assert (Ni : breaks_line i = false) by (destruct literal; reflexivity).
  eapply pc_seq; [apply (L_skip _ _ _ _ _ _ Hh Ni)|]. cbn beta. intros _ s1 (c' & r' & [= <- <-] & _ & H1 & S1).
  eapply pc_seq; [apply (L_cache _ _ 1 _ _ _ _ H1)|]. cbn beta. intros _ s2 (H2 & S2).
  eapply pc_seq; [apply (L_header _ _ _ _ _ H2); lia|]. cbn beta. intros [ch inc] s3 (h & r3 & -> & Bh & Hinc & Hch & H3 & S3).
  eapply pc_seq; [apply (L_cache _ _ 1 _ _ _ _ H3)|]. cbn beta. intros _ s4 (H4 & S4).
  eapply pc_seq; [apply (L_blanks _ _ _ _ _ _ H4); lia|]. cbn beta. intros _ s5 (bs & r5 & -> & Fb & H5 & S5 & Nb). apply pc_bind, pc_get.
  eapply pc_seq; [apply (L_comment rest T 1 (((p ++ [i]) ++ h) ++ bs) r5 [] _ _ _ H5 (le_n _) (skips_refl _ _)); symmetry; apply app_nil_r|]. cbn beta. intros _ s6 (cm & r6 & -> & Dx & _ & H6 & S6). apply pc_bind, pc_get.
  assert (S06 : same s s6) by (eapply same_trans; [exact S1|]; eapply same_trans; [exact S2|]; eapply same_trans; [exact S3|]; eapply same_trans; [exact S4|]; eapply same_trans; eauto). clear S1 S2 S3 S4 S5 S6.
  apply pc_bind. destruct (is_breakz (bget 0 s6)) eqn:E6; cbn [negb]; [|apply pc_error]. apply pc_ret. apply pc_bind.
  pose proof (at_break _ _ _ _ _ _ H6 (le_n _) E6) as B6.
  eapply pc_conseq with (Q := fun _ s' => exists b r', r6 = b ++ r' /\ (In b break_texts \/ b = [] /\ r' = []) /\ (b = [13] -> hd 0 r' <> 10) /\
    H 0 (p ++ i :: h ++ bs ++ cm ++ b) r' s' /\ same s s' /\ (m_col (position (p ++ i :: h ++ bs ++ cm ++ b)) = 0 \/ r' = [])).
  { destruct (is_break (bget 0 s6)) eqn:E7; cbn [when].
    - eapply pc_seq; [apply (L_cache _ _ 2 _ _ _ _ H6)|]. cbn beta. intros _ s7 (H7 & S7).
      eapply pc_conseq; [apply (L_skip_break _ _ _ _ _ _ H7); [lia|apply (is_break_head _ _ _ _ _ _ H6 E7)]|]. cbn beta. intros _ s8 (b & r8 & -> & B1 & B2 & H8 & S8).
      exists b, r8. split; [reflexivity|]. split; [auto|]. split; [exact B2|]. rewrite <- !app_assoc in H8. split; [eapply H_less; [|exact H8]; lia|]. split; [eapply same_trans; [exact S06|]; eapply same_trans; eauto|].
      left. pose proof (col_break (p ++ i :: h ++ bs ++ cm) b B1) as X. rewrite <- !app_assoc in X. cbn [app] in X. rewrite <- !app_assoc in X. exact X.
    - apply pc_ret. rewrite (H_get _ _ _ _ _ _ _ H6) in E6, E7 by lia. destruct r6 as [|c r6]; [|cbn in E6, E7; congruence].
      exists [], []. rewrite !app_nil_r. rewrite <- !app_assoc in H6. split; [reflexivity|]. split; [auto|]. split; [discriminate|]. split; [eapply H_less; [|exact H6]; lia|auto]. }
  cbn beta. clear B6 E6. intros _ s7 (b & r7 & -> & Db & Cb & H7 & S7 & Col). apply pc_bind, pc_gets. apply pc_bind, pc_get. cbv zeta.
  set (ind := if (inc =? 0)%Z then 0%Z else if (0 <=? indent s7)%Z then (indent s7 + inc)%Z else inc).
  assert (Hind : (0 <= ind)%Z /\ (inc <> 0%Z -> (inc <= ind)%Z) /\ (inc = 0%Z -> ind = 0%Z)) by (unfold ind; destruct (inc =? 0)%Z eqn:X1; [lia|]; destruct (0 <=? indent s7)%Z eqn:X2; lia). clearbody ind.
  eapply pc_seq; [apply (L_empty ind [] _ _ _ _ _ _ H7); [lia|exact Col]|]. cbn beta. intros [[ind' tr] em] s8 (e & j & r8 & -> & H8 & S8 & Ee & -> & -> & Hi & Hb8 & Hj8 & Nf). cbn [app].
  set (n := Z.to_nat ind') in *.
  assert (Hn : (1 <= n)%nat /\ Z.of_nat n = ind' /\ forall q, incr_of inc = Some q -> q <= N.of_nat n).
  { unfold n, incr_of. destruct (ind =? 0)%Z eqn:X; [|subst ind'].
    - split; [lia|]. split; [lia|]. intros q. destruct (inc =? 0)%Z eqn:Y; [discriminate|]. lia.
    - split; [lia|]. split; [lia|]. intros q. destruct (inc =? 0)%Z eqn:Y; [discriminate|]. intros [= <-]. lia. }
  destruct Hn as (Hn1 & Hn2 & Hn3). clearbody n. subst ind'.
  eapply pc_seq; [apply (L_cache _ _ 1 _ _ _ _ H8)|]. cbn beta. intros _ s9 (H9 & S9).
  assert (Hj9 : r8 = [] \/ bcol s9 = Z.of_nat j).
  { destruct Hj8 as [X|X]; [auto|]. right. unfold bcol in *. rewrite (h_pos _ _ _ _ _ _ H9), <- (h_pos _ _ _ _ _ _ H8). exact X. }
  eapply pc_seq; [apply (L_lines literal _ n e _ j _ _ _ (position ((p ++ i :: h ++ bs ++ cm ++ b) ++ e)) H9); [lia|exact Hn1|reflexivity|exact Hb8|exact Hj9]|]. cbn beta.
  intros [[[x lbk] tr] em] s10 (ls & j' & r10 & lb & El & H10 & S10 & Fl & -> & X & Lf). apply pc_ret.
  set (w := h ++ bs ++ cm ++ b ++ e ++ flat_map (line_source n) ls).
  assert (Ew : forall z, (p ++ i :: h ++ bs ++ cm ++ b) ++ e ++ flat_map (line_source n) ls ++ z = p ++ (i :: w) ++ z).
  { intros z. unfold w. cbn [app]. rewrite <- !app_assoc. cbn [app]. rewrite <- !app_assoc. reflexivity. }
  exists (i :: w), (spaces j'), r10. cbn [t_data t_start t_end].
  split; [|split; [discriminate|split; [|split; [|split; [|split; [|split; [|split]]]]]]].
  - cbn [app]. f_equal. rewrite El. unfold w. rewrite <- !app_assoc. reflexivity.
  - set (v := if (ch =? 1)%Z then _ else _).
    assert (Bw : block literal w v).
    { assert (Ev : v = (match ls with [] => [] | _ => breaks_of e end) ++ block_value literal ls ++ chomped (chomp_of ch) e ls).
      { unfold v, chomped, so_far, chomp_of in *. cbn [In] in Hch. destruct ls as [|l0 ls].
        - destruct X as (-> & -> & -> & _). destruct Hch as [<-|[<-|[<-|[]]]]; reflexivity.
        - cbv zeta in X |- *. fold dfl. destruct X as (-> & -> & -> & _). destruct Hch as [<-|[<-|[<-|[]]]]; cbn [Z.eqb Pos.eqb]; rewrite <- ?app_assoc, ?app_nil_r; reflexivity. }
      rewrite Ev. apply (Bl literal h (chomp_of ch) (incr_of inc) bs cm b n e ls); auto.
      - destruct Db as [Db|[Db Er]]; [left; exact Db|]. right. apply app_eq_nil in Er. destruct Er as [-> Er]. rewrite Er in El. split; [exact Db|]. split; [reflexivity|]. symmetry in El. apply app_eq_nil in El. destruct El as [El _].
        destruct ls as [|l ls]; [reflexivity|]. cbn [flat_map] in El. apply app_eq_nil in El. destruct El as [El _]. unfold line_source in El. apply app_eq_nil in El. destruct El as [_ El]. apply app_eq_nil in El. destruct El as [El _].
        apply Forall_inv in Fl. destruct Fl as [Fl _]. contradiction.
      - intros Z. specialize (Cb Z). destruct e as [|z e]; [cbn; discriminate|exact Cb].
      - intros Z l El'. rewrite (Lf l El'). apply Nf. apply Hind. unfold incr_of in Z. destruct (inc =? 0)%Z eqn:Y; [lia|discriminate]. }
    unfold i. destruct literal; constructor; exact Bw.
  - apply (h_pos _ _ _ _ _ _ Hh).
  - f_equal. pose proof (Ew []) as Z. rewrite !app_nil_r in Z. exact Z.
  - pose proof (skips_filler (p ++ i :: w) (spaces j' ++ r10) [] (spaces j') r10 (skips_refl _ _) (spaces_fillers j')) as Z. exact Z.
  - rewrite Ew in H10. exact H10.
  - eapply same_trans; [exact S7|]. eapply same_trans; [exact S8|]. eapply same_trans; eauto.
  - destruct literal; exact Hfl.
Qed.
End text.
