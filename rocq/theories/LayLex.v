(** LayLex.v -- how the layout of a text is reflected in the scanner: positions, indentation, simple keys. *)
From Coq Require Import Lia ZifyBool ZifyNat ZifyN Bool.
From Verif Require Import Base Utf Chars State Reader Scanner Wp ReaderFacts ReadFacts ScanFacts RoundScan EmitChars EmitScalar CanonLex LayItems.
From Verif Require Spec_Lexical LexBase.
Import Spec_Lexical (position, step_mark, breaks_line).
Open Scope N_scope.

(** ** Positions *)
Notation mk := LexBase.mk.
Lemma pos_fold p w : position (p ++ w) = fst (fold_left step_mark w (mk p)).
Proof. unfold position. change (fst (mk (p ++ w)) = fst (fold_left step_mark w (mk p))). rewrite LexBase.mk_app. reflexivity. Qed.
Lemma fold_col w : forall x, m_col (fst (fold_left step_mark w x)) = cadv (m_col (fst x)) w.
Proof.
  induction w as [|c w IH]; intros [m cr]; [reflexivity|]. cbn [fold_left cadv]. rewrite IH. unfold cadv. cbn [fold_left]. f_equal. cbn [step_mark fst].
  destruct (cr && (c =? 10)) eqn:E; [|destruct (breaks_line c); reflexivity]. assert (c = 10) as -> by lia. reflexivity.
Qed.
Lemma col_app p w : m_col (position (p ++ w)) = cadv (m_col (position p)) w.
Proof. rewrite pos_fold, fold_col. reflexivity. Qed.
Lemma fold_idx w : forall x, m_index (fst (fold_left step_mark w x)) = m_index (fst x) + str_len w.
Proof.
  induction w as [|c w IH]; intros [m cr]; [cbn; lia|]. cbn [fold_left]. rewrite IH, str_len_cons. cbn [step_mark fst].
  destruct (cr && (c =? 10)) eqn:E; [assert (c = 10) as -> by lia; change (len_utf8 10) with 1; cbn [fst m_index]; lia|]. destruct (breaks_line c); cbn [fst m_index]; rewrite LexBase.size_utf8; lia.
Qed.
Lemma idx_app p w : m_index (position (p ++ w)) = m_index (position p) + str_len w.
Proof. rewrite pos_fold, fold_idx. reflexivity. Qed.
Lemma fold_line_le w : forall x, m_line (fst x) <= m_line (fst (fold_left step_mark w x)).
Proof.
  induction w as [|c w IH]; intros [m cr]; [cbn; lia|]. cbn [fold_left]. etransitivity; [|apply IH]. cbn [step_mark fst].
  destruct (cr && (c =? 10)); [cbn; lia|]. destruct (breaks_line c); cbn; lia.
Qed.
Lemma line_le p w : m_line (position p) <= m_line (position (p ++ w)).
Proof. rewrite pos_fold. exact (fold_line_le w (mk p)). Qed.
Lemma fold_line_same w : has_break w = false -> forall x, m_line (fst (fold_left step_mark w x)) = m_line (fst x).
Proof.
  induction w as [|c w IH]; intros H [m cr]; [reflexivity|]. cbn [has_break existsb] in H. apply orb_false_iff in H. destruct H as [Hc Hw]. cbn [fold_left]. rewrite (IH Hw). cbn [step_mark fst].
  rewrite Hc. destruct (cr && (c =? 10)); reflexivity.
Qed.
Lemma line_same p w : has_break w = false -> m_line (position (p ++ w)) = m_line (position p).
Proof. intros H. rewrite pos_fold, (fold_line_same w H). reflexivity. Qed.
Lemma fold_line_lt w : has_break w = true -> forall x, (snd x = true -> hd 0 w <> 10) -> m_line (fst x) < m_line (fst (fold_left step_mark w x)).
Proof.
  induction w as [|c w IH]; intros H [m cr] Hc; [discriminate|]. cbn [fold_left]. cbn [snd hd] in Hc. cbn [has_break existsb] in H. unfold step_mark at 2.
  assert (E : cr && (c =? 10) = false) by (destruct cr; [|reflexivity]; specialize (Hc eq_refl); cbn [andb]; lia). rewrite E.
  destruct (breaks_line c) eqn:Eb.
  - eapply N.lt_le_trans; [|apply fold_line_le]. cbn. lia.
  - eapply N.le_lt_trans; [|apply (IH H)]; [cbn; lia|cbn [snd]; discriminate].
Qed.
Lemma line_lt p w : has_break w = true -> (snd (mk p) = true -> hd 0 w <> 10) -> m_line (position p) < m_line (position (p ++ w)).
Proof. intros H Hc. rewrite pos_fold. exact (fold_line_lt w H (mk p) Hc). Qed.

(** ** The scanner after the text [p] *)
Section text.
Variable T : str.
Definition Hx (p r : str) (s : sst) : Prop := LexBase.H [] T 0 p r s.
Lemma Hx_buf p r s : Hx p r s -> ideal s -> buffer s = r.
Proof. intros H (He & _). apply (tx_eof _ _ _ (LexBase.h_text _ _ _ _ _ _ H) He). Qed.
Lemma Hx_pos p r s : Hx p r s -> pos s = position p. Proof. apply LexBase.h_pos. Qed.
Lemma Hx_T p r s : Hx p r s -> T = p ++ r. Proof. apply LexBase.h_T. Qed.
Lemma Hx_at p r s : Hx p r s -> ideal s -> s = at_ s r (position p).
Proof. intros H Hi. rewrite <- (Hx_buf _ _ _ H Hi), <- (Hx_pos _ _ _ H). apply at_id. Qed.
Lemma Hx_cr p w r s : Hx p (w ++ r) s -> has_break w = true -> snd (mk p) = true -> hd 0 w <> 10.
Proof. intros H Hb Hc. pose proof (LexBase.h_cr _ _ _ _ _ _ H Hc) as K. destruct w; [discriminate|exact K]. Qed.
Lemma Hx_ext p r s s' : Hx p r s -> src s' = src s -> eof s' = eof s -> buffer s' = buffer s -> enc s' = enc s -> offset s' = offset s -> pos s' = pos s -> Hx p r s'.
Proof.
  intros [A B C D F] E1 E2 E3 E4 E5 E6. constructor; [exact A| |congruence|exact D|rewrite E3; exact F]. destruct B as [B1 B2 B3 B4 B5]. 
  assert (Es : sb s' = sb s) by (unfold sb; rewrite E1; reflexivity). constructor; auto.
  - unfold cleans in *. rewrite E1. exact B1.
  - rewrite E2, E3. exact B4.
  - rewrite E1, E3, E4, E5, Es. exact B5.
Qed.

(** ** Simple keys *)
Definition key_rel (p : str) (n q : N) (sl : slot) (k : simple_key) : Prop :=
  match sl with
  | SOff => sk_possible k = true -> sk_required k = false /\ m_line (sk_mark k) < m_line (position p)
  | SMay => sk_possible k = true -> sk_required k = false /\ m_line (sk_mark k) <= m_line (position p)
  | SLive _ c u => sk_possible k = true /\ m_line (sk_mark k) = m_line (position p) /\ m_index (position p) = m_index (sk_mark k) + u /\ u <= 1024 /\
      m_col (sk_mark k) = c /\ n <= sk_token k <= q
  end.
Definition kind_ok (li : list N) (sl : slot) : Prop :=
  match sl with
  | SLive KRoll c _ => exists r, li = c :: r /\ (top r < Z.of_N c)%Z /\ c <= 2147483647
  | SLive KSame c _ => top li = Z.of_N c
  | _ => True
  end.
Definition is_roll (sl : slot) : bool := match sl with SLive KRoll _ _ => true | _ => false end.
Definition real (ls : lstate) : list N := if existsb is_roll (lsl ls) then tl (lli ls) else lli ls.
Fixpoint live_of (sl : list slot) (ks : list simple_key) : option (kind * N) :=
  match sl, ks with
  | SLive kd _ _ :: _, k :: _ => Some (kd, sk_token k)
  | _ :: sl, _ :: ks => live_of sl ks
  | _, _ => None
  end.
(** The queue as it will be when the simple key has been found. *)
Definition put (o : option (kind * N)) (n : N) (q : list token_data) : list token_data :=
  match o with Some (kd, t) => firstn (N.to_nat (t - n)) q ++ ins kd ++ skipn (N.to_nat (t - n)) q | None => q end.
Definition E (ls : lstate) (s : sst) : list token_data :=
  put (live_of (lsl ls) (simple_keys s)) (tokens_parsed s) (map t_data (tokens s)) ++ repeat TBlockEnd (length (lpop ls)).
Definition next_token (s : sst) : N := tokens_parsed s + N.of_nat (length (tokens s)).
Lemma next_grow s s' l : tokens_parsed s' = tokens_parsed s -> tokens s' = tokens s ++ l -> next_token s <= next_token s'.
Proof. unfold next_token. intros -> ->. rewrite app_length. lia. Qed.
Record R0 (ls : lstate) (p : str) (s : sst) : Prop := {
  r_ideal : ideal s; r_start : stream_start_produced s = true; r_level : flow_level s = lv ls; r_col : m_col (position p) = lcol ls;
  r_ind : indent s :: indents s = map Z.of_N (lpop ls ++ real ls) ++ [(-1)%Z];
  r_count : N.of_nat (length (lsl ls)) = lv ls + 1;
  r_keys : Forall2 (key_rel p (tokens_parsed s) (next_token s)) (lsl ls) (simple_keys s);
  r_kinds : Forall (kind_ok (lli ls)) (lsl ls);
  r_one : (length (filter is_live (lsl ls)) <= 1)%nat;
  r_pop : live (lsl ls) = true -> lpop ls = [] }.
Lemma not_live_of sl : live sl = false -> forall ks, live_of sl ks = None.
Proof. induction sl as [|x sl IH]; intros H ks; [reflexivity|]. cbn [live existsb] in H. apply orb_false_iff in H. destruct H as [H1 H2]. destruct x; try discriminate H1; destruct ks; cbn [live_of]; auto. Qed.
Lemma not_live_roll sl : live sl = false -> existsb is_roll sl = false.
Proof. induction sl as [|x sl IH]; intros H; [reflexivity|]. cbn [live existsb] in *. apply orb_false_iff in H. destruct H as [H1 H2]. rewrite (IH H2). destruct x; try discriminate H1; reflexivity. Qed.
Lemma not_live_filter sl : live sl = false -> filter is_live sl = [].
Proof. induction sl as [|x sl IH]; intros H; [reflexivity|]. cbn [live existsb filter] in *. apply orb_false_iff in H. destruct H as [H1 H2]. rewrite H1. apply IH, H2. Qed.
Lemma filter_live sl : (length (filter is_live sl) = 0)%nat -> live sl = false.
Proof. induction sl as [|x sl IH]; intros H; [reflexivity|]. cbn [live existsb filter] in *. destruct (is_live x); [discriminate H|apply IH, H]. Qed.
(** The one slot of the block context. *)
Lemma one_slot ls p s : R0 ls p s -> lv ls = 0 -> exists sl k, lsl ls = [sl] /\ simple_keys s = [k].
Proof.
  intros R Hv. pose proof (r_count _ _ _ R) as C. pose proof (r_keys _ _ _ R) as K. rewrite Hv in C. destruct (lsl ls) as [|sl [|]]; cbn [length] in C; try lia.
  inversion K as [|? k ? ? ? K2]; subst. inversion K2; subst. eauto.
Qed.
Lemma head_slot ls p s : R0 ls p s -> exists sl r k ks, lsl ls = sl :: r /\ simple_keys s = k :: ks /\ key_rel p (tokens_parsed s) (next_token s) sl k /\ Forall2 (key_rel p (tokens_parsed s) (next_token s)) r ks.
Proof.
  intros R. pose proof (r_count _ _ _ R) as C. pose proof (r_keys _ _ _ R) as K. destruct (lsl ls) as [|sl r]; cbn [length] in C; [lia|].
  inversion K; subst. eexists _, _, _, _. eauto.
Qed.
Lemma key_grow p n q q' : q <= q' -> forall sl k, key_rel p n q sl k -> key_rel p n q' sl k.
Proof. intros H [| |kd c u] k; cbn [key_rel]; [auto..|]. intros (A & B & C & D & F & G). repeat split; auto; lia. Qed.
Lemma Forall2_imp {A B} (P Q : A -> B -> Prop) l l' : (forall a b, P a b -> Q a b) -> Forall2 P l l' -> Forall2 Q l l'.
Proof. intros H. induction 1; constructor; auto. Qed.

(** Before a token: keys that are too old. *)
Definition fresh : list slot -> list simple_key -> Prop := Forall2 (fun sl k => sl = SOff -> sk_possible k = false).
Lemma stale_go p n q sl ks : Forall2 (key_rel p n q) sl ks -> exists ks', stale_keys (position p) ks = (ks', None) /\ Forall2 (key_rel p n q) sl ks' /\ fresh sl ks' /\ live_of sl ks' = live_of sl ks /\ map sk_token ks' = map sk_token ks.
Proof.
  induction 1 as [|x k sl ks Hk _ (ks' & E1 & F & G & L & Mt)]; [exists []; repeat split; constructor|]. cbn [stale_keys]. rewrite E1. destruct (sk_stale (position p) k) eqn:Es.
  - unfold sk_stale in Es. apply andb_true_iff in Es. destruct Es as [Ep Es]. destruct x as [| |kd c u]; cbn [key_rel] in Hk.
    + destruct (Hk Ep) as [-> _]. exists (sk_off k :: ks'). repeat split; [constructor; [intros D; discriminate D|exact F]|constructor; [reflexivity|exact G]|exact L|cbn [map sk_token sk_off]; rewrite Mt; reflexivity].
    + destruct (Hk Ep) as [-> _]. exists (sk_off k :: ks'). repeat split; [constructor; [intros D; discriminate D|exact F]|constructor; [reflexivity|exact G]|exact L|cbn [map sk_token sk_off]; rewrite Mt; reflexivity].
    + exfalso. destruct Hk as (_ & H1 & H2 & H3 & _). lia.
  - exists (k :: ks'). repeat split; [constructor; assumption| |cbn [live_of]; rewrite L; reflexivity|cbn [map]; rewrite Mt; reflexivity]. constructor; [|exact G]. intros ->. cbn [key_rel] in Hk. destruct (sk_possible k) eqn:Ep; [|reflexivity].
    destruct (Hk eq_refl) as [_ Hl]. unfold sk_stale in Es. rewrite Ep in Es. cbn [andb] in Es. lia.
Qed.
Lemma stale_at ls p s : R0 ls p s -> pos s = position p -> exists ks, stale_simple_keys s = (Ok tt, set_simple_keys ks s) /\ R0 ls p (set_simple_keys ks s) /\ fresh (lsl ls) ks /\ E ls (set_simple_keys ks s) = E ls s /\ map sk_token ks = map sk_token (simple_keys s).
Proof.
  intros R Hp. destruct (stale_go _ _ _ _ _ (r_keys _ _ _ R)) as (ks & E1 & F & G & L & Mt). exists ks. unfold stale_simple_keys. rewrite Hp, E1. split; [reflexivity|].
  split; [destruct R; constructor; auto|]. split; [exact G|]. split; [|exact Mt]. unfold E. cbn [simple_keys set_simple_keys]. rewrite L. reflexivity.
Qed.

(** ** Indentation *)
Lemma unroll_all c m pops : forall i st j st' toks, i :: st = map Z.of_N pops ++ j :: st' -> Forall (fun x => c < Z.of_N x)%Z pops -> (j <= c)%Z ->
  unroll_go c i st m toks = (None, j, st', toks ++ repeat (Mk_token TBlockEnd m m) (length pops)).
Proof.
  induction pops as [|x pops IH]; intros i st j st' toks He Hf Hj.
  - cbn [map app] in He. injection He as -> ->. cbn [length repeat]. rewrite app_nil_r. destruct st'; cbn [unroll_go]; replace (c <? j)%Z with false by lia; reflexivity.
  - inversion Hf as [|? ? Hx1 Hx2]; subst. cbn [map app] in He. injection He as -> ->. assert (Hs : map Z.of_N pops ++ j :: st' <> []) by (destruct (map Z.of_N pops); discriminate).
    destruct (map Z.of_N pops ++ j :: st') as [|i2 st2] eqn:Es; [congruence|]. cbn [unroll_go]. replace (c <? Z.of_N x)%Z with true by lia. rewrite (IH i2 st2 j st' _ (eq_sym Es) Hx2 Hj). rewrite <- app_assoc. reflexivity.
Qed.
Lemma unroll_some c m pops : forall i st j st' toks, i :: st = map Z.of_N pops ++ j :: st' -> (j <= c)%Z ->
  exists n i1 st1, (n <= length pops)%nat /\ unroll_go c i st m toks = (None, i1, st1, toks ++ repeat (Mk_token TBlockEnd m m) n) /\ i1 :: st1 = map Z.of_N (skipn n pops) ++ j :: st'.
Proof.
  induction pops as [|x pops IH]; intros i st j st' toks He Hj.
  - exists O, j, st'. split; [cbn; lia|]. split; [|reflexivity]. apply (unroll_all c m [] i st j st' toks He); [constructor|exact Hj].
  - cbn [map app] in He. injection He as -> ->. destruct (c <? Z.of_N x)%Z eqn:Ec.
    + assert (Hs : map Z.of_N pops ++ j :: st' <> []) by (destruct (map Z.of_N pops); discriminate).
      destruct (map Z.of_N pops ++ j :: st') as [|i2 st2] eqn:Es; [congruence|]. destruct (IH i2 st2 j st' (toks ++ [Mk_token TBlockEnd m m]) (eq_sym Es) Hj) as (n & i1 & st1 & Ln & E1 & E2).
      exists (S n), i1, st1. split; [cbn [length]; lia|]. split; [|exact E2]. cbn [unroll_go]. rewrite Ec, E1. rewrite <- app_assoc. reflexivity.
    + exists O, (Z.of_N x), (map Z.of_N pops ++ j :: st'). split; [lia|]. split; [|reflexivity]. cbn [repeat]. rewrite app_nil_r. destruct (map Z.of_N pops ++ j :: st'); cbn [unroll_go]; rewrite Ec; reflexivity.
Qed.
Lemma map_be m n : map t_data (repeat (Mk_token TBlockEnd m m) n) = repeat TBlockEnd n.
Proof. induction n as [|n IH]; [reflexivity|]. cbn [repeat map t_data]. rewrite IH. reflexivity. Qed.
Lemma real_live ls : live (lsl ls) = false -> real ls = lli ls.
Proof. intros H. unfold real. rewrite (not_live_roll _ H). reflexivity. Qed.
Lemma ind_top ls p s : R0 ls p s -> lpop ls = [] -> exists l, map Z.of_N (real ls) ++ [(-1)%Z] = indent s :: l /\ indent s = top (real ls) /\ indents s = l.
Proof. intros R Hp. pose proof (r_ind _ _ _ R) as H. rewrite Hp in H. cbn [app] in H. exists (indents s). split; [symmetry; exact H|]. split; [|reflexivity]. destruct (real ls); cbn in H; injection H as H _; exact H. Qed.
Lemma real_top ls p s : R0 ls p s -> (top (real ls) <= top (lli ls))%Z.
Proof.
  intros R. unfold real. destruct (existsb is_roll (lsl ls)) eqn:Er; [|lia]. apply existsb_exists in Er. destruct Er as (sl & Hin & Hr).
  pose proof (r_kinds _ _ _ R) as K. rewrite Forall_forall in K. specialize (K _ Hin). destruct sl as [| |[] c u]; try discriminate Hr. cbn [kind_ok] in K. destruct K as (r & -> & H & _). cbn [tl top]. lia.
Qed.
Lemma flush_pop ls ls1 : flush ls = Some ls1 -> ls1 = LS (lv ls) (lcol ls) (lli ls) [] (lal ls) (lsl ls) (lsoon ls) (ln ls).
Proof.
  unfold flush. destruct (lv ls =? 0) eqn:Ev.
  - destruct (_ && _); [|discriminate]. intros [= <-]. reflexivity.
  - destruct (is_empty (lpop ls)) eqn:Ep; [|discriminate]. intros [= <-]. destruct ls as [v c li po al sl so n]; cbn in *. destruct po; [reflexivity|discriminate].
Qed.
Lemma flush_at ls ls1 p s : R0 ls p s -> pos s = position p -> flush ls = Some ls1 ->
  exists i st l, unroll_indent (bcol s) s = (Ok tt, set_tokens (tokens s ++ l) (set_indents st (set_indent i s))) /\
    R0 ls1 p (set_tokens (tokens s ++ l) (set_indents st (set_indent i s))) /\ E ls1 (set_tokens (tokens s ++ l) (set_indents st (set_indent i s))) = E ls s.
Proof.
  intros R Hp Hf. pose proof (flush_pop _ _ Hf) as ->. unfold flush in Hf. unfold unroll_indent. rewrite (r_level _ _ _ R). destruct (lv ls =? 0) eqn:Ev; cbn [negb].
  - destruct (forallb _ _ && _) eqn:Eg; [|discriminate]. apply andb_true_iff in Eg. destruct Eg as [Eg1 Eg2]. clear Hf.
    pose proof (r_ind _ _ _ R) as Hi. rewrite map_app, <- app_assoc in Hi.
    assert (Hj : exists j st', map Z.of_N (real ls) ++ [(-1)%Z] = j :: st' /\ j = top (real ls)) by (destruct (real ls) as [|i0 r0]; cbn; eauto).
    destruct Hj as (j & st' & Ej & Et). rewrite Ej in Hi.
    assert (Hb : bcol s = Z.of_N (lcol ls)) by (unfold bcol; rewrite Hp, (r_col _ _ _ R); reflexivity).
    rewrite (unroll_all (bcol s) (pos s) (lpop ls) (indent s) (indents s) j st' (tokens s) Hi).
    2: { apply Forall_forall. intros x Hx1. rewrite forallb_forall in Eg1. specialize (Eg1 _ Hx1). rewrite Hb. lia. }
    2: { rewrite Hb, Et. pose proof (real_top _ _ _ R). lia. }
    eexists j, st', _. split; [reflexivity|]. split.
    + destruct R. constructor; auto.
      cbn [simple_keys tokens_parsed set_tokens set_indents set_indent lsl]. eapply Forall2_imp; [|exact r_keys0]. intros a b. apply key_grow. eapply (next_grow s); reflexivity.
    + unfold E. cbn [lsl lpop simple_keys tokens_parsed tokens set_tokens set_indents set_indent length repeat]. rewrite app_nil_r, map_app, map_be.
      destruct (live (lsl ls)) eqn:El; [rewrite (r_pop _ _ _ R El); cbn [length repeat]; rewrite !app_nil_r; reflexivity|]. rewrite !(not_live_of _ El). reflexivity.
  - destruct (lpop ls) as [|] eqn:Ep; [|discriminate]. exists (indent s), (indents s), []. rewrite app_nil_r. split; [destruct s; reflexivity|].
    split; [|unfold E; cbn [lsl lpop]; rewrite Ep; reflexivity]. destruct R. constructor; auto; cbn [lpop]; rewrite Ep in *; assumption.
Qed.
(** All of the block collections end. *)
Lemma unroll_out ls p s m : R0 ls p s -> lv ls = 0 -> lli ls = [] -> live (lsl ls) = false -> forall c, (-1 <= c)%Z -> pos s = m ->
  exists s', unroll_indent c s = (Ok tt, s') /\ exists n i st, (n <= length (lpop ls))%nat /\ s' = set_tokens (tokens s ++ repeat (Mk_token TBlockEnd m m) n) (set_indents st (set_indent i s)) /\
    i :: st = map Z.of_N (skipn n (lpop ls)) ++ [(-1)%Z].
Proof.
  intros R Hv Hl El c Hc Hm. unfold unroll_indent. rewrite (r_level _ _ _ R), Hv. cbn [N.eqb negb].
  pose proof (r_ind _ _ _ R) as Hi. rewrite (real_live _ El), Hl, app_nil_r in Hi. rewrite Hm.
  destruct (unroll_some c m (lpop ls) (indent s) (indents s) (-1)%Z [] (tokens s) Hi Hc) as (n & i1 & st1 & Ln & E1 & E2). rewrite E1. eexists. split; [reflexivity|]. exists n, i1, st1. auto.
Qed.

(** ** Saving and removing keys *)
Lemma removes ls p s k ks sl r : R0 ls p s -> lsl ls = sl :: r -> simple_keys s = k :: ks -> is_live sl = false -> remove_simple_key s = (Ok tt, set_simple_keys (sk_off k :: ks) s).
Proof.
  intros R Es Ek Hl. unfold remove_simple_key. rewrite Ek. pose proof (r_keys _ _ _ R) as K. rewrite Es, Ek in K. inversion K as [|? ? ? ? K1 _]; subst.
  replace (sk_possible k && sk_required k) with false; [reflexivity|]. symmetry. destruct (sk_possible k) eqn:Ep; [|reflexivity]. cbn [andb].
  destruct sl; try discriminate Hl; cbn [key_rel] in K1; apply (K1 Ep).
Qed.
Lemma unsave_at ls ls1 p s : R0 ls p s -> unsave ls = Some ls1 -> exists k ks, simple_keys s = k :: ks /\ remove_simple_key s = (Ok tt, set_simple_keys (sk_off k :: ks) s) /\
  R0 ls1 p (set_simple_keys (sk_off k :: ks) s) /\ E ls1 (set_simple_keys (sk_off k :: ks) s) = E ls s.
Proof.
  intros R H. destruct (head_slot _ _ _ R) as (sl & r & k & ks & Es & Ek & K1 & K2). unfold unsave in H. rewrite Es in H. destruct (is_live sl || lsoon ls) eqn:Eg; [discriminate|]. injection H as <-.
  apply orb_false_iff in Eg. destruct Eg as [Eg _]. exists k, ks. split; [exact Ek|]. split; [exact (removes _ _ _ _ _ _ _ R Es Ek Eg)|].
  assert (X : live (SOff :: r) = live (sl :: r) /\ existsb is_roll (SOff :: r) = existsb is_roll (sl :: r) /\ filter is_live (SOff :: r) = filter is_live (sl :: r)).
  { cbn. rewrite Eg. destruct sl; try discriminate Eg; auto. }
  destruct X as (X1 & X2 & X3). split.
  - destruct R. constructor; auto; cbn [with_slots lsl lli lpop lv simple_keys set_simple_keys]; rewrite Es in *.
    + unfold real in *. cbn [with_slots lsl lli]. rewrite X2. rewrite Es in r_ind0. exact r_ind0.
    + cbn [length] in *. assumption.
    + constructor; [intros D; discriminate D|]. exact K2.
    + inversion r_kinds0; constructor; [exact Logic.I|assumption].
    + rewrite X3. assumption.
    + rewrite X1. assumption.
  - unfold E. cbn [with_slots lsl lpop simple_keys set_simple_keys tokens_parsed tokens]. rewrite Es, Ek. cbn [live_of]. destruct sl; try discriminate Eg; reflexivity.
Qed.
Lemma save_at ls ls1 tk p s : R0 ls p s -> lpop ls = [] -> simple_key_allowed s = lal ls -> pos s = position p -> save ls = Some (ls1, tk) ->
  exists ks, save_simple_key s = (Ok tt, set_simple_keys ks s) /\ R0 ls1 p (set_simple_keys ks s) /\ E ls1 (set_simple_keys ks s) = E ls s ++ tk.
Proof.
  intros R Hpop Ha Hp H. destruct (head_slot _ _ _ R) as (sl & r & k & ks & Es & Ek & K1 & K2). unfold save in H. rewrite Es in H.
  assert (Hb : bcol s = Z.of_N (lcol ls)) by (unfold bcol; rewrite Hp, (r_col _ _ _ R); reflexivity).
  assert (Sv : is_live sl = false -> lal ls = true -> save_simple_key s = (Ok tt, set_simple_keys (Mk_sk true ((flow_level s =? 0) && (indent s =? bcol s)%Z) (next_token s) (pos s) :: ks) s)).
  { intros Hl Hal. unfold save_simple_key. rewrite bgt. cbv zeta. rewrite Ha, Hal. rewrite (bok _ _ _ _ _ (removes _ _ _ _ _ _ _ R Es Ek Hl)). reflexivity. }
  assert (Lv : forall kd, live (sl :: r) = false -> lal ls = true -> (kd = KRoll -> exists li, lli ls = li /\ (top li < Z.of_N (lcol ls))%Z /\ lcol ls <= 2147483647) -> (kd = KSame -> top (lli ls) = Z.of_N (lcol ls)) ->
    ls1 = with_slots (match kd with KRoll => lcol ls :: lli ls | _ => lli ls end) (SLive kd (lcol ls) 0 :: r) ls -> tk = ins kd ->
    exists ks, save_simple_key s = (Ok tt, set_simple_keys ks s) /\ R0 ls1 p (set_simple_keys ks s) /\ E ls1 (set_simple_keys ks s) = E ls s ++ tk).
  { intros kd Hl Hal Hk1 Hk2 -> ->. pose proof Hl as Hl'. cbn [live existsb] in Hl'. apply orb_false_iff in Hl'. destruct Hl' as [Hl1 Hl2]. fold (live r) in Hl2.
    eexists. split; [exact (Sv Hl1 Hal)|]. split.
    - pose proof (not_live_roll _ Hl) as Nr. pose proof (not_live_roll _ Hl2) as Nr2. destruct R. constructor; auto; cbn [with_slots lsl lli lpop lv simple_keys set_simple_keys]; rewrite Es in *.
      + unfold real in *. cbn [with_slots lsl lli]. rewrite Es, Nr in r_ind0. cbn [existsb is_roll]. destruct kd; cbn [orb]; rewrite ?Nr2; cbn [tl]; exact r_ind0.
      + cbn [length] in *. assumption.
      + constructor; [|exact K2]. cbn [key_rel sk_possible sk_mark sk_token]. rewrite Hp, N.add_0_r. repeat split; try lia; [change (tokens_parsed s <= next_token s); unfold next_token; lia|change (next_token s <= next_token s); lia].
      + constructor; [destruct kd; cbn [kind_ok]; [|apply Hk2; reflexivity|exact Logic.I]|].
        * destruct (Hk1 eq_refl) as (li & <- & H1 & H2). exists (lli ls). auto.
        * inversion r_kinds0 as [|? ? _ Kr]; subst. apply Forall_forall. intros x Hx1. rewrite Forall_forall in Kr. specialize (Kr _ Hx1). assert (Nx : is_live x = false) by (destruct (is_live x) eqn:Ex; [|reflexivity]; rewrite <- Hl2; symmetry; apply existsb_exists; eauto).
          destruct x; try discriminate Nx; exact Logic.I.
      + cbn [filter is_live length]. rewrite (not_live_filter _ Hl2). cbn. lia.
    - unfold E. cbn [with_slots lsl lpop simple_keys set_simple_keys tokens_parsed tokens live_of sk_token]. rewrite Es, Hpop. cbn [length repeat]. rewrite !app_nil_r, (not_live_of _ Hl). cbn [put].
      unfold next_token. replace (N.to_nat (tokens_parsed s + N.of_nat (length (tokens s)) - tokens_parsed s)) with (length (map t_data (tokens s))) by (rewrite map_length; lia).
      rewrite firstn_all, skipn_all, app_nil_r. reflexivity. }
  destruct (lsoon ls) eqn:Eso.
  - rewrite <- Es in H. destruct (lal ls && negb (live (lsl ls))) eqn:Eg; [|discriminate]. apply andb_true_iff in Eg. destruct Eg as [Hal Hl]. apply negb_true_iff in Hl. rewrite Es in Hl.
    destruct (lv ls =? 0).
    + destruct (top (lli ls) <? Z.of_N (lcol ls))%Z eqn:Et.
      * destruct (lcol ls <=? 2147483647) eqn:Ec; [|discriminate]. injection H as <- <-. apply (Lv KRoll Hl Hal); [|discriminate|reflexivity|reflexivity]. intros _. exists (lli ls). split; [reflexivity|]. lia.
      * destruct (top (lli ls) =? Z.of_N (lcol ls))%Z eqn:Eq; [|discriminate]. injection H as <- <-. apply (Lv KSame Hl Hal); [discriminate|intros _; lia|reflexivity|reflexivity].
    + injection H as <- <-. apply (Lv KFlow Hl Hal); [discriminate|discriminate|reflexivity|reflexivity].
  - destruct (lal ls) eqn:Hal.
    + destruct (is_live sl || _) eqn:Eg; [discriminate|]. injection H as <- <-. apply orb_false_iff in Eg. destruct Eg as [Hl Er]. eexists. split; [exact (Sv Hl eq_refl)|].
      assert (X : live (SMay :: r) = live (sl :: r) /\ existsb is_roll (SMay :: r) = existsb is_roll (sl :: r) /\ filter is_live (SMay :: r) = filter is_live (sl :: r)).
      { cbn. rewrite Hl. destruct sl; try discriminate Hl; auto. }
      destruct X as (X1 & X2 & X3). split.
      * assert (Req : (flow_level s =? 0) && (indent s =? bcol s)%Z = false).
        { rewrite (r_level _ _ _ R). destruct (lv ls =? 0) eqn:Ev; [|reflexivity]. cbn [andb] in *. destruct (ind_top _ _ _ R Hpop) as (l & _ & -> & _). rewrite Hb.
          destruct (one_slot _ _ _ R) as (sl' & k' & Es' & _); [lia|]. rewrite Es' in Es. injection Es as -> <-. rewrite real_live; [exact Er|]. rewrite Es'. cbn. rewrite Hl. reflexivity. }
        destruct R. constructor; auto; cbn [with_slots lsl lli lpop lv simple_keys set_simple_keys]; rewrite Es in *.
        -- unfold real in *. cbn [with_slots lsl lli]. rewrite X2. rewrite Es in r_ind0. exact r_ind0.
        -- cbn [length] in *. assumption.
        -- constructor; [|exact K2]. intros _. cbn [sk_required sk_mark]. rewrite Hp. split; [exact Req|lia].
        -- inversion r_kinds0; constructor; [exact Logic.I|assumption].
        -- rewrite X3. assumption.
      * unfold E. cbn [with_slots lsl lpop simple_keys set_simple_keys tokens_parsed tokens]. rewrite Es, Ek, app_nil_r. cbn [live_of]. destruct sl; try discriminate Hl; reflexivity.
    + injection H as <- <-. exists (simple_keys s). split; [unfold save_simple_key; rewrite bgt; cbv zeta; rewrite Ha; destruct s; reflexivity|].
      rewrite app_nil_r. split; [destruct R; constructor; auto|reflexivity].
Qed.

(** An indicator that begins a block collection. *)
Lemma roll_at ls ls1 d tk p s : R0 ls p s -> lpop ls = [] -> lv ls = 0 -> live (lsl ls) = false -> pos s = position p -> roll d ls = Some (ls1, tk) ->
  exists i st l, roll_indent (bcol s) None d (pos s) s = (Ok tt, set_tokens (tokens s ++ l) (set_indents st (set_indent i s))) /\
    R0 ls1 p (set_tokens (tokens s ++ l) (set_indents st (set_indent i s))) /\ E ls1 (set_tokens (tokens s ++ l) (set_indents st (set_indent i s))) = E ls s ++ tk.
Proof.
  intros R Hpop Hv Hl Hp H. assert (Hb : bcol s = Z.of_N (lcol ls)) by (unfold bcol; rewrite Hp, (r_col _ _ _ R); reflexivity).
  destruct (ind_top _ _ _ R Hpop) as (l & El & Et & _). rewrite (real_live _ Hl) in *. unfold roll in H. destruct (negb (lal ls)); [discriminate|].
  unfold roll_indent. rewrite bgt, (r_level _ _ _ R), Hv, Et, Hb. cbn [N.eqb negb]. destruct (top (lli ls) <? Z.of_N (lcol ls))%Z eqn:Ec.
  - destruct (lcol ls <=? 2147483647) eqn:Em; [|discriminate]. injection H as <- <-. exists (Z.of_N (lcol ls)), (indent s :: indents s), [Mk_token d (pos s) (pos s)]. split.
    + rewrite (bmod _ _ _ (set_indents (indent s :: indents s) s)) by reflexivity. replace (Z.of_N (lcol ls) <=? 2147483647)%Z with true by lia. rewrite (bok (ret tt) _ _ tt _ eq_refl).
      rewrite (bmod _ _ _ (set_indent (Z.of_N (lcol ls)) (set_indents (indent s :: indents s) s))) by reflexivity. destruct s; reflexivity.
    + split.
      * pose proof (r_ind _ _ _ R) as Hi. rewrite Hpop, (real_live _ Hl) in Hi. destruct R. constructor; auto; cbn [lsl lli lpop lv simple_keys tokens_parsed].
        -- cbn [indent indents set_tokens set_indents set_indent]. unfold real. cbn [lsl lli lpop]. rewrite (not_live_roll _ Hl), Hpop. cbn [app map]. f_equal. exact Hi.
        -- cbn [simple_keys tokens_parsed set_tokens set_indents set_indent]. eapply Forall2_imp; [|exact r_keys0]. intros a b. apply key_grow. eapply (next_grow s); reflexivity.
        -- apply Forall_forall. intros x Hx1. assert (Nx : is_live x = false) by (destruct (is_live x) eqn:Ex; [|reflexivity]; rewrite <- Hl; symmetry; apply existsb_exists; eauto). destruct x; try discriminate Nx; exact Logic.I.
      * unfold E. cbn [lsl lpop simple_keys tokens_parsed tokens set_tokens set_indents set_indent]. rewrite Hpop. cbn [length repeat]. rewrite !(not_live_of _ Hl), !app_nil_r, map_app. reflexivity.
  - destruct (top (lli ls) =? Z.of_N (lcol ls))%Z; [|discriminate]. injection H as <- <-. exists (indent s), (indents s), []. rewrite !app_nil_r. split; [destruct s; reflexivity|]. split; [destruct R; constructor; auto|reflexivity].
Qed.

(** ** Walking over text, and new tokens *)
Lemma live_of_map f sl : (forall x, is_live (f x) = is_live x) -> (forall kd c u, exists c' u', f (SLive kd c u) = SLive kd c' u') -> forall ks, live_of (map f sl) ks = live_of sl ks.
Proof.
  intros H1 H2. induction sl as [|x sl IH]; intros ks; [reflexivity|]. cbn [map]. destruct ks as [|k ks].
  - cbn [live_of]. destruct (f x), x; reflexivity.
  - specialize (H1 x). destruct x as [| |kd c u].
    + destruct (f SOff); try discriminate H1; apply IH.
    + destruct (f SMay); try discriminate H1; apply IH.
    + destruct (H2 kd c u) as (c' & u' & ->). reflexivity.
Qed.
Lemma live_map f sl : (forall x, is_live (f x) = is_live x) -> live (map f sl) = live sl.
Proof. intros H. unfold live. induction sl as [|x sl IH]; [reflexivity|]. cbn [map existsb]. rewrite H, IH. reflexivity. Qed.
Lemma walk_at w ls ls1 p s : R0 ls p s -> walk w ls = Some ls1 -> (has_break w = true -> snd (mk p) = true -> hd 0 w <> 10) -> R0 ls1 (p ++ w) s /\ E ls1 s = E ls s.
Proof.
  intros R H Hcr. unfold walk in H. destruct (has_break w) eqn:Eb.
  - destruct (live (lsl ls)) eqn:El; [discriminate|]. injection H as <-. pose proof (line_lt p w Eb (Hcr eq_refl)) as Hlt.
    assert (Nl : live (map (fun _ => SOff) (lsl ls)) = false) by (clear; induction (lsl ls) as [|x l IH]; [reflexivity|exact IH]).
    split.
    + destruct R. constructor; auto; cbn [lsl lli lpop lv lcol].
      * rewrite col_app, r_col0. reflexivity.
      * unfold real in *. cbn [lsl lli lpop]. rewrite (not_live_roll _ Nl). rewrite (not_live_roll _ El) in r_ind0. exact r_ind0.
      * rewrite map_length. assumption.
      * clear -r_keys0 Hlt El. revert El. induction r_keys0 as [|x k sl ks Hk _ IH]; intros El; [constructor|]. cbn [live existsb] in El. apply orb_false_iff in El. destruct El as [E1 E2]. constructor; [|apply IH, E2].
        intros Hp. destruct x; try discriminate E1; cbn [key_rel] in Hk; destruct (Hk Hp); split; auto; lia.
      * clear. induction (lsl ls) as [|x l IH]; constructor; [exact Logic.I|exact IH].
      * rewrite (not_live_filter _ Nl). cbn. lia.
      * rewrite Nl. discriminate.
    + unfold E. cbn [lsl lpop]. rewrite (not_live_of _ El), (not_live_of _ Nl). reflexivity.
  - destruct (forallb fresh_enough (map (bump (str_len w)) (lsl ls))) eqn:Ef; [|discriminate]. injection H as <-.
    assert (B1 : forall x, is_live (bump (str_len w) x) = is_live x) by (intros []; reflexivity).
    assert (B2 : forall kd c u, exists c' u', bump (str_len w) (SLive kd c u) = SLive kd c' u') by (intros; eexists _, _; reflexivity).
    assert (B3 : existsb is_roll (map (bump (str_len w)) (lsl ls)) = existsb is_roll (lsl ls)) by (clear; induction (lsl ls) as [|x l IH]; [reflexivity|]; cbn [map existsb]; rewrite IH; destruct x; reflexivity).
    assert (B4 : length (filter is_live (map (bump (str_len w)) (lsl ls))) = length (filter is_live (lsl ls))) by (clear -B1; induction (lsl ls) as [|x l IH]; [reflexivity|]; cbn [map filter]; rewrite B1; destruct (is_live x); cbn [length]; rewrite IH; reflexivity).
    pose proof (line_same p w Eb) as Hli. pose proof (idx_app p w) as Hix.
    split.
    + destruct R. constructor; auto; cbn [lsl lli lpop lv lcol].
      * rewrite col_app, r_col0. reflexivity.
      * unfold real in *. cbn [lsl lli lpop]. rewrite B3. exact r_ind0.
      * rewrite map_length. assumption.
      * clear -r_keys0 Hli Hix Ef. revert Ef. induction r_keys0 as [|x k sl ks Hk _ IH]; intros Ef; [constructor|]. cbn [map forallb] in Ef. apply andb_true_iff in Ef. destruct Ef as [F1 F2]. cbn [map]. constructor; [|apply IH, F2].
        destruct x as [| |kd c u]; cbn [bump key_rel fresh_enough] in *.
        -- intros Hp. rewrite Hli. apply Hk, Hp.
        -- intros Hp. rewrite Hli. apply Hk, Hp.
        -- destruct Hk as (A & B & C & D & F & G). rewrite Hli. repeat split; auto; lia.
      * clear -r_kinds0. induction r_kinds0 as [|x l Hx _ IH]; [constructor|]. cbn [map]. constructor; [|exact IH]. destruct x as [| |[] c u]; exact Hx.
      * rewrite B4. assumption.
      * rewrite (live_map _ _ B1). assumption.
    + unfold E. cbn [lsl lpop]. rewrite (live_of_map _ _ B1 B2). reflexivity.
Qed.
Lemma walk_is w ls ls1 : walk w ls = Some ls1 -> lv ls1 = lv ls /\ lcol ls1 = cadv (lcol ls) w /\ lli ls1 = lli ls /\ lpop ls1 = lpop ls /\ lal ls1 = lal ls /\ lsoon ls1 = lsoon ls /\ ln ls1 = ln ls.
Proof. unfold walk. destruct (has_break w); [destruct (live (lsl ls)); [discriminate|]|destruct (forallb _ _); [|discriminate]]; intros [= <-]; repeat split. Qed.
Lemma live_range ls p s kd t : R0 ls p s -> live_of (lsl ls) (simple_keys s) = Some (kd, t) -> tokens_parsed s <= t <= next_token s.
Proof.
  intros R. pose proof (r_keys _ _ _ R) as K. revert K. generalize (lsl ls) (simple_keys s). clear R. intros sl ks K. induction K as [|x k sl ks Hk _ IH]; [discriminate|]. cbn [live_of].
  destruct x; auto. intros [= <- <-]. cbn [key_rel] in Hk. tauto.
Qed.
Lemma push_at ls p s l : R0 ls p s -> lpop ls = [] -> R0 ls p (set_tokens (tokens s ++ l) s) /\ E ls (set_tokens (tokens s ++ l) s) = E ls s ++ map t_data l.
Proof.
  intros R Hpop. split.
  - destruct R. constructor; auto. eapply Forall2_imp; [|exact r_keys0]. intros a b. apply key_grow. eapply (next_grow s); reflexivity.
  - unfold E. cbn [simple_keys tokens_parsed tokens set_tokens]. rewrite Hpop. cbn [length repeat]. rewrite !app_nil_r, map_app. unfold put.
    destruct (live_of (lsl ls) (simple_keys s)) as [[kd t]|] eqn:El; [|reflexivity]. pose proof (live_range _ _ _ _ _ R El) as Hr. unfold next_token in Hr.
    rewrite firstn_app, skipn_app, map_length. replace (N.to_nat (t - tokens_parsed s) - length (tokens s))%nat with O by lia. cbn [firstn skipn]. rewrite app_nil_r, <- !app_assoc. reflexivity.
Qed.
Lemma R0_same ls ls' p s s' : R0 ls p s -> lv ls' = lv ls -> lcol ls' = lcol ls -> lli ls' = lli ls -> lpop ls' = lpop ls -> lsl ls' = lsl ls ->
  ideal s' -> stream_start_produced s' = stream_start_produced s -> flow_level s' = flow_level s -> indent s' = indent s -> indents s' = indents s -> simple_keys s' = simple_keys s -> tokens s' = tokens s -> tokens_parsed s' = tokens_parsed s ->
  R0 ls' p s' /\ E ls' s' = E ls s.
Proof.
  intros R A1 A2 A3 A4 A5 B0 B1 B2 B3 B4 B5 B6 B7. split.
  - destruct R. constructor; [exact B0|congruence|congruence|congruence| |congruence| | |congruence|].
    + unfold real in *. rewrite B3, B4, A4, A5, A3. exact r_ind0.
    + unfold next_token in *. rewrite B5, B6, B7, A5. exact r_keys0.
    + rewrite A3, A5. exact r_kinds0.
    + rewrite A4, A5. exact r_pop0.
  - unfold E. rewrite A4, A5, B5, B6, B7. reflexivity.
Qed.
End text.
