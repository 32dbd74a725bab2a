(** CanonLex.v -- reading a text made of the tokens that canonical output consists of.

    The lemmas are about scanner states in which all of the text is in the buffer ([ideal]). *)
From Coq Require Import Lia ZifyBool ZifyNat ZifyN Bool.
From Verif Require Import Base Utf Chars State Reader Scanner Wp ScanFacts RoundScan RoundPlain EmitScalar.
Open Scope N_scope.

(** ** Loops that skip or read a word *)
Section words.
Variable s : sst.
Hypothesis Hid : ideal s.
Notation at_ := (at_ s).
Notation c_at := (c_at s Hid).
Lemma bget_at n tx m : bget n (at_ tx m) = nth_error tx n. Proof. reflexivity. Qed.
Lemma skip_word (cond : sst -> bool) t (w : str) : forall m,
  (forall c r m', In c w -> cond (at_ (c :: r) m') = true) -> (forall m', cond (at_ t m') = false) ->
  exists m', skip_while cond (at_ (w ++ t) m) = (Ok tt, at_ t m') /\ m_line m' = m_line m /\ (w = [] -> m' = m).
Proof.
  unfold skip_while. match goal with |- context [loop ?b _ _] => set (body := b) end. intros m H1 H2.
  enough (H : exists m', lr body tt (at_ (w ++ t) m) tt (at_ t m') /\ m_line m' = m_line m /\ (w = [] -> m' = m)).
  { destruct H as (m' & L & C). exists m'. split; [apply lr_loop, L|exact C]. }
  revert m H1. induction w as [|c w IH]; intros m H1.
  - exists m. split; [|auto]. apply lr_stop. subst body. cbv beta. rewrite bgt. cbn [app]. rewrite H2. reflexivity.
  - destruct (IH (advance (len_utf8 c) m)) as (m' & L & C & _); [intros; apply H1; right; assumption|].
    exists m'. split; [|split; [exact C|discriminate]]. cbn [app]. refine (lr_go _ _ _ _ _ _ _ _ _ L); [|shorter].
    subst body. cbv beta. rewrite bgt. rewrite (H1 c) by (left; reflexivity). rewrite (bok _ _ _ _ _ (skip_at _ _ _ _)), (bok _ _ _ _ _ (c_at _ _ _)). reflexivity.
Qed.
Lemma read_word (cond : sst -> bool) t (w : str) : forall x m,
  (forall c r m', In c w -> cond (at_ (c :: r) m') = true) -> (forall m', cond (at_ t m') = false) ->
  exists m', read_while cond x (at_ (w ++ t) m) = (Ok (x ++ w), at_ t m') /\ m_line m' = m_line m.
Proof.
  unfold read_while. match goal with |- context [loop ?b _ _] => set (body := b) end. intros x m H1 H2.
  enough (H : exists m', lr body x (at_ (w ++ t) m) (x ++ w) (at_ t m') /\ m_line m' = m_line m).
  { destruct H as (m' & L & C). exists m'. split; [apply lr_loop, L|exact C]. }
  revert x m H1. induction w as [|c w IH]; intros x m H1.
  - exists m. split; [|reflexivity]. rewrite app_nil_r. apply lr_stop. subst body. cbv beta. rewrite bgt. cbn [app]. rewrite H2. reflexivity.
  - destruct (IH (x ++ [c]) (advance (len_utf8 c) m)) as (m' & L & C); [intros; apply H1; right; assumption|].
    exists m'. split; [|exact C]. rewrite <- app_assoc in L. cbn [app] in L |- *. refine (lr_go _ _ _ _ _ _ _ _ _ L); [|shorter].
    subst body. cbv beta. rewrite bgt. rewrite (H1 c) by (left; reflexivity). rewrite (bok _ _ _ _ _ (read_at _ _ _ _ _)), (bok _ _ _ _ _ (c_at _ _ _)). reflexivity.
Qed.
End words.

(** ** Spaces and line breaks between tokens; [true] is a line break *)
Definition gtext (lf : str) (g : list bool) : str := flat_map (fun b : bool => if b then lf else [32]) g.
Definition tok_start (t : str) : Prop :=
  match t with [] => True | c :: _ => is_blank (Some c) = false /\ is_break_c c = false /\ c <> 35 /\ c <> 65279 end.
Fixpoint gz (z : bool) (g : list bool) : bool := match g with [] => z | b :: r => gz b r end.
Definition gnl (g : list bool) : bool := existsb (fun b => b) g.
Lemma gtext_app lf a b : gtext lf (a ++ b) = gtext lf a ++ gtext lf b. Proof. apply flat_map_app. Qed.
Lemma gz_app a b : forall z, gz z (a ++ b) = gz (gz z a) b.
Proof. induction a as [|x a IH]; intros z; [reflexivity|]. cbn [app gz]. apply IH. Qed.
Lemma gtext_spaces lf n : gtext lf (repeat false n) = sps n.
Proof. induction n as [|n IH]; [reflexivity|]. cbn [repeat gtext flat_map app sps]. f_equal. exact IH. Qed.
Lemma gap_split (g : list bool) : exists n r, g = repeat false n ++ r /\ (r = [] \/ exists q, r = true :: q).
Proof.
  induction g as [|[] g IH]; [exists O, []; auto|exists O, (true :: g); split; [reflexivity|right; eauto]|].
  destruct IH as (n & r & -> & H). exists (S n), r. auto.
Qed.

Definition gap_body : unit -> M sst (unit + unit) := fun _ =>
    cache 1 ;;
    s <- get ;;
    when ((m_col (pos s) =? 0) && IS_BOM (bget 0 s)) skip_char ;;
    cache 1 ;;
    skip_while (fun s => chk cSP (bget 0 s)
                  || (negb (flow_level s =? 0) || negb (simple_key_allowed s)) && chk cTAB (bget 0 s)) ;;
    s <- get ;;
    when (chk cHASH (bget 0 s)) (skip_while (fun s => negb (is_breakz (bget 0 s)))) ;;
    s <- get ;;
    if negb (is_break (bget 0 s)) then ret (inr tt)
    else
      cache 2 ;;
      skip_line_break ;;
      modify (fun s => if flow_level s =? 0 then set_simple_key_allowed true s else s) ;;
      ret (inl tt).
Lemma gap_eq : scan_to_next_token = loop gap_body tt. Proof. reflexivity. Qed.

Lemma no_lf lf g t : lf_ok lf -> tok_start t -> match gtext lf g ++ t with 10 :: _ => lf <> [13] | _ => True end.
Proof.
  intros Hlf Ht. destruct g as [|[] g]; cbn [gtext flat_map app].
  - destruct t as [|c t]; [exact I|]. destruct Ht as (_ & Hb & _). destruct (N.eqb_spec c 10) as [-> |Hc]; [discriminate|].
    repeat match goal with |- match ?d with _ => _ end => destruct d; try exact I end; congruence.
  - destruct Hlf as [-> |[-> | ->]]; cbn; try exact I. discriminate.
  - exact I.
Qed.
Lemma slb s lf T m : lf_ok lf -> match T with 10 :: _ => lf <> [13] | _ => True end -> exists w, skip_line_break (at_ s (lf ++ T) m) = (Ok tt, at_ s T (next_line w m)).
Proof.
  intros Hlf H. destruct Hlf as [-> |[-> | ->]]; [eexists; reflexivity| |eexists; reflexivity].
  destruct T as [|d T]; [eexists; reflexivity|]. exists 1. unfold skip_line_break. change (buffer (at_ s ([13] ++ d :: T) m)) with (13 :: d :: T). cbv iota.
  cbn [nth_error chk]. destruct (N.eqb_spec d 10) as [-> |]; [congruence|reflexivity].
Qed.
Lemma lf_first lf T : lf_ok lf -> exists c r, lf ++ T = c :: r /\ (c = 10 \/ c = 13).
Proof. intros [-> |[-> | ->]]; eexists _, _; split; reflexivity || auto. Qed.

Lemma gap_at lf t : lf_ok lf -> tok_start t -> forall n g s m z, (length g <= n)%nat -> ideal s -> (z = true -> m_col m = 0) ->
  exists al m', scan_to_next_token (at_ s (gtext lf g ++ t) m) = (Ok tt, at_ (set_simple_key_allowed al s) t m') /\
    m_line m <= m_line m' /\ (gnl g = true -> m_line m < m_line m') /\ (gz z g = true -> m_col m' = 0) /\ al = simple_key_allowed s || (flow_level s =? 0) && gnl g.
Proof.
  intros Hlf Ht. rewrite gap_eq.
  enough (H : forall n g s m z, (length g <= n)%nat -> ideal s -> (z = true -> m_col m = 0) ->
    exists al m', lr gap_body tt (at_ s (gtext lf g ++ t) m) tt (at_ (set_simple_key_allowed al s) t m') /\
    m_line m <= m_line m' /\ (gnl g = true -> m_line m < m_line m') /\ (gz z g = true -> m_col m' = 0) /\ al = simple_key_allowed s || (flow_level s =? 0) && gnl g).
  { intros n g s m z Hn Hi Hz. destruct (H n g s m z Hn Hi Hz) as (al & m' & L & C). exists al, m'. split; [apply lr_loop, L|exact C]. }
  intros n. induction n as [n IH] using lt_wf_ind. intros g s m z Hn Hid Hz.
  destruct (gap_split g) as (k & r & -> & Hr).
  set (T := gtext lf r ++ t).
  assert (Hhd : chk 32 (nth_error T 0) = false /\ chk 9 (nth_error T 0) = false /\ chk 35 (nth_error T 0) = false /\ chk 65279 (nth_error T 0) = false).
  { unfold T. destruct Hr as [-> |(q & ->)].
    - cbn [gtext flat_map app]. destruct t as [|c t]; [auto|]. destruct Ht as (H1 & H2 & H3 & H4). cbn [nth_error chk]. unfold is_blank, is_space, is_tab in H1. cbn [chk] in H1. repeat split; lia.
    - cbn [gtext flat_map]. rewrite <- app_assoc. destruct (lf_first lf (flat_map (fun b : bool => if b then lf else [32]) q ++ t) Hlf) as (c & r & -> & [-> | ->]); repeat split. }
  destruct Hhd as (H32 & H9 & H35 & Hbom).
  destruct (skip_word s Hid (fun s => chk cSP (bget 0 s) || (negb (flow_level s =? 0) || negb (simple_key_allowed s)) && chk cTAB (bget 0 s)) T (sps k) m) as (m1 & E1 & Ml & M0).
  { intros c x m' Hc. unfold sps in Hc. apply repeat_spec in Hc. subst c. reflexivity. }
  { intros m'. cbv beta. rewrite bget_at, H32, H9. rewrite andb_false_r. reflexivity. }
  assert (B : forall u, gap_body u (at_ s (gtext lf (repeat false k ++ r) ++ t) m) =
    (if negb (is_break (nth_error T 0)) then ret (inr tt)
     else cache 2 ;; skip_line_break ;; modify (fun s => if flow_level s =? 0 then set_simple_key_allowed true s else s) ;; ret (inl tt)) (at_ s T m1)).
  { intros u. unfold gap_body. rewrite (bok _ _ _ _ _ (c_at s Hid _ _ _)), bgt.
    replace (IS_BOM (bget 0 (at_ s (gtext lf (repeat false k ++ r) ++ t) m))) with false.
    2: { rewrite bget_at. destruct k as [|k]; [symmetry; exact Hbom|reflexivity]. }
    rewrite andb_false_r. cbn [when]. rewrite (bok (ret tt) _ _ tt _ eq_refl), (bok _ _ _ _ _ (c_at s Hid _ _ _)).
    rewrite gtext_app, gtext_spaces, <- app_assoc. change (gtext lf r ++ t) with T.
    rewrite (bok _ _ _ _ _ E1), bgt, bget_at, H35. cbn [when]. rewrite (bok (ret tt) _ _ tt _ eq_refl), bgt, bget_at. reflexivity. }
  destruct Hr as [-> |(q & ->)].
  - exists (simple_key_allowed s), m1. split; [|split; [lia|split; [|split]]].
    + apply lr_stop. rewrite B. replace (is_break (nth_error T 0)) with false; [destruct s; reflexivity|].
      unfold T. cbn [gtext flat_map app]. destruct t as [|c t]; [reflexivity|]. destruct Ht as (_ & H & _). symmetry. exact H.
    + rewrite app_nil_r. unfold gnl. intros H. exfalso. clear -H. induction k as [|k IHk]; [discriminate|exact (IHk H)].
    + rewrite app_nil_r. destruct k as [|k]; [rewrite (M0 eq_refl); exact Hz|]. intros H. exfalso. clear -H. cbn [repeat gz] in H. induction k as [|k IHk]; [discriminate|exact (IHk H)].
    + rewrite app_nil_r. replace (gnl (repeat false k)) with false; [rewrite andb_false_r, orb_false_r; reflexivity|]. clear. induction k as [|k IHk]; [reflexivity|exact IHk].
  - assert (ET : T = lf ++ gtext lf q ++ t) by (unfold T; cbn [gtext flat_map]; rewrite <- app_assoc; reflexivity).
    destruct (slb s lf (gtext lf q ++ t) m1 Hlf (no_lf lf q t Hlf Ht)) as (w & E2).
    rewrite app_length, repeat_length in Hn. cbn [length] in Hn.
    assert (Hm : (meas (at_ s (gtext lf q ++ t) (next_line w m1)) < meas (at_ s (gtext lf (repeat false k ++ true :: q) ++ t) m))%nat).
    { rewrite gtext_app, <- app_assoc. change (gtext lf (true :: q)) with (lf ++ gtext lf q). rewrite <- app_assoc. apply meas_lt. rewrite !app_length. destruct Hlf as [-> |[-> | ->]]; cbn [length]; lia. }
    set (s1 := if flow_level s =? 0 then set_simple_key_allowed true s else s).
    destruct (IH (length q) ltac:(lia) q s1 (next_line w m1) true) as (al & m' & L & G1 & G2 & G3 & G4); [lia|subst s1; destruct (flow_level s =? 0); exact Hid|reflexivity|].
    exists al, m'. split.
    + replace (set_simple_key_allowed al s1) with (set_simple_key_allowed al s) in L by (subst s1; destruct (flow_level s =? 0); reflexivity).
      refine (lr_go _ _ _ _ _ _ _ _ _ L).
      2: { subst s1. rewrite !meas_at in *. destruct (flow_level s =? 0); exact Hm. }
      rewrite B. replace (is_break (nth_error T 0)) with true.
      2: { rewrite ET. destruct (lf_first lf (gtext lf q ++ t) Hlf) as (c & y & -> & [-> | ->]); reflexivity. }
      cbn [negb]. rewrite (bok _ _ _ _ _ (c_at s Hid _ _ _)). rewrite ET, (bok _ _ _ _ _ E2). subst s1.
      unfold modify, bind, ret. change (flow_level (at_ s (gtext lf q ++ t) (next_line w m1))) with (flow_level s). destruct (flow_level s =? 0); reflexivity.
    + cbn [next_line m_line] in G1, G2. split; [lia|]. split; [lia|]. split.
      2: { rewrite G4. replace (gnl (repeat false k ++ true :: q)) with true by (clear; induction k as [|k IHk]; [reflexivity|exact IHk]). subst s1. destruct (flow_level s =? 0) eqn:Ef; cbn; rewrite ?Ef; cbn; destruct (simple_key_allowed s); reflexivity. }
      replace (gz z (repeat false k ++ true :: q)) with (gz true q); [exact G3|]. rewrite gz_app. reflexivity.
Qed.

Lemma bmod {A} f (k : unit -> M sst A) (s s' : sst) : f s = s' -> bind (modify f) k s = k tt s'. Proof. intros <-. reflexivity. Qed.

(** ** The state between tokens *)
Definition key_ok (b : N) (k : simple_key) : Prop := sk_possible k = true -> sk_required k = false /\ m_line (sk_mark k) < b.
Record inv (lv b : N) (s : sst) : Prop := {
  i_ideal : ideal s; i_start : stream_start_produced s = true; i_indent : indent s = (-1)%Z; i_indents : indents s = [];
  i_level : flow_level s = lv; i_count : N.of_nat (length (simple_keys s)) = lv + 1; i_keys : Forall (key_ok b) (simple_keys s) }.
Lemma key_mono b b' k : b <= b' -> key_ok b k -> key_ok b' k.
Proof. intros H K P. destruct (K P). split; [assumption|lia]. Qed.
Lemma inv_mono lv b b' s : b <= b' -> inv lv b s -> inv lv b' s.
Proof. intros H [I1 I2 I3 I4 I5 I6 I7]. constructor; auto. eapply Forall_impl; [|exact I7]. intros k. apply key_mono, H. Qed.
(** [s2] has one token more than [s]. *)
Record moved (s : sst) (d : token_data) (s2 : sst) : Prop := {
  v_src : src s2 = src s; v_parsed : tokens_parsed s2 = tokens_parsed s; v_av : token_available s2 = token_available s;
  v_end : stream_end_produced s2 = stream_end_produced s; v_tok : exists a b, tokens s2 = tokens s ++ [Mk_token d a b] }.

Definition fetch_rest : M sst unit :=
    s <- get ;;
    let col0 := m_col (pos s) =? 0 in
    let o := bget 0 s in
    let flow := negb (flow_level s =? 0) in
    if is_z o then fetch_stream_end
    else if col0 && chk cPCT o then fetch_directive
    else if col0 && chk cMINUS o && chk cMINUS (bget 1 s) && chk cMINUS (bget 2 s) && is_blankz (bget 3 s)
    then fetch_document_indicator TDocumentStart
    else if col0 && chk cDOT o && chk cDOT (bget 1 s) && chk cDOT (bget 2 s) && is_blankz (bget 3 s)
    then fetch_document_indicator TDocumentEnd
    else if chk cLBRK o then fetch_flow_collection_start TFlowSequenceStart
    else if chk cLBRC o then fetch_flow_collection_start TFlowMappingStart
    else if chk cRBRK o then fetch_flow_collection_end TFlowSequenceEnd
    else if chk cRBRC o then fetch_flow_collection_end TFlowMappingEnd
    else if chk cCOMMA o then fetch_flow_entry
    else if chk cMINUS o && is_blankz (bget 1 s) then fetch_block_entry
    else if chk cQM o && (flow || is_blankz (bget 1 s)) then fetch_key
    else if chk cCOLON o && (flow || is_blankz (bget 1 s)) then fetch_value
    else if chk cSTAR o then fetch_anchor true
    else if chk cAMP o then fetch_anchor false
    else if chk cBANG o then fetch_tag
    else if chk cPIPE o && negb flow then fetch_block_scalar true
    else if chk cGT o && negb flow then fetch_block_scalar false
    else if chk cSQ o then fetch_flow_scalar true
    else if chk cDQ o then fetch_flow_scalar false
    else if plain_start s then fetch_plain_scalar
    else scan_error "while scanning for the next token" (pos s) "found character that cannot start any token".
Lemma fetch_eq : fetch_next_token =
  (cache 1 ;; s <- get ;; if negb (stream_start_produced s) then fetch_stream_start
   else scan_to_next_token ;; stale_simple_keys ;; s <- get ;; unroll_indent (bcol s) ;; cache 4 ;; fetch_rest).
Proof. reflexivity. Qed.

Lemma stale_ok b m ks : Forall (key_ok b) ks -> exists ks', stale_keys m ks = (ks', None) /\ length ks' = length ks /\ Forall (key_ok b) ks' /\
  Forall (fun k => sk_possible k = true -> m_line m <= m_line (sk_mark k)) ks'.
Proof.
  induction 1 as [|k ks Hk _ (ks' & E & El & F1 & F2)]; [exists []; repeat split; constructor|]. cbn [stale_keys]. rewrite E.
  destruct (sk_stale m k) eqn:Es.
  - unfold sk_stale in Es. apply andb_true_iff in Es. destruct Es as [Ep _]. destruct (Hk Ep) as [-> _]. exists (sk_off k :: ks').
    split; [reflexivity|]. split; [cbn [length]; rewrite El; reflexivity|]. split; constructor; auto; intros H; discriminate H.
  - exists (k :: ks'). split; [reflexivity|]. split; [cbn [length]; rewrite El; reflexivity|]. split; constructor; auto. intros Hp. unfold sk_stale in Es. rewrite Hp in Es. cbn [andb] in Es. apply orb_false_iff in Es. lia.
Qed.
Lemma unroll_nil s tx m c : indents s = [] -> indent s = (-1)%Z -> (-1 <= c)%Z -> unroll_indent c (at_ s tx m) = (Ok tt, at_ s tx m).
Proof.
  intros H1 H2 Hc. unfold unroll_indent. change (flow_level (at_ s tx m)) with (flow_level s). destruct (negb (flow_level s =? 0)); [reflexivity|].
  change (indent (at_ s tx m)) with (indent s). change (indents (at_ s tx m)) with (indents s). rewrite H1, H2. cbn [unroll_go].
  replace (c <? -1)%Z with false by lia. destruct s; cbn in *; subst; reflexivity.
Qed.

(** Up to the next token. *)
Lemma fetch_pre lf g t lv b s m z : lf_ok lf -> tok_start t -> inv lv b s -> b <= m_line m + 1 -> (z = true -> m_col m = 0) ->
  exists s1 m1, fetch_next_token (at_ s (gtext lf g ++ t) m) = fetch_rest (at_ s1 t m1) /\ inv lv b s1 /\
    m_line m <= m_line m1 /\ (gz z g = true -> m_col m1 = 0) /\ (gnl g = true -> Forall (fun k => sk_possible k = false) (simple_keys s1)) /\
    (b <= m_line m -> Forall (fun k => sk_possible k = false) (simple_keys s1)) /\
    src s1 = src s /\ tokens_parsed s1 = tokens_parsed s /\ token_available s1 = token_available s /\ stream_end_produced s1 = stream_end_produced s /\ tokens s1 = tokens s.
Proof.
  intros Hlf Ht I Hb Hz. pose proof (i_ideal _ _ _ I) as Hid. rewrite fetch_eq, (bok _ _ _ _ _ (c_at s Hid _ _ _)), bgt.
  change (stream_start_produced (at_ s (gtext lf g ++ t) m)) with (stream_start_produced s). rewrite (i_start _ _ _ I). cbn [negb].
  destruct (gap_at lf t Hlf Ht (length g) g s m z (le_n _) Hid Hz) as (al & m1 & E1 & L1 & L2 & Z1 & _). rewrite (bok _ _ _ _ _ E1).
  set (s1 := set_simple_key_allowed al s) in *.
  destruct (stale_ok b m1 (simple_keys s) (i_keys _ _ _ I)) as (ks & E2 & El & F1 & F2).
  assert (E3 : stale_simple_keys (at_ s1 t m1) = (Ok tt, at_ (set_simple_keys ks s1) t m1)).
  { unfold stale_simple_keys. change (pos (at_ s1 t m1)) with m1. change (simple_keys (at_ s1 t m1)) with (simple_keys s). rewrite E2. reflexivity. }
  rewrite (bok _ _ _ _ _ E3), bgt. set (s2 := set_simple_keys ks s1) in *.
  rewrite (bok _ _ _ _ _ (unroll_nil s2 t m1 (bcol (at_ s2 t m1)) (i_indents _ _ _ I) (i_indent _ _ _ I) ltac:(unfold bcol; lia))).
  rewrite (bok _ _ _ _ _ (c_at s2 Hid _ _ _)). exists s2, m1. split; [reflexivity|]. split.
  { destruct I. constructor; auto. change (simple_keys s2) with ks. rewrite El. assumption. }
  split; [exact L1|]. split; [exact Z1|].
  assert (K : b <= m_line m1 -> Forall (fun k => sk_possible k = false) (simple_keys s2)).
  { intros Hlt. change (simple_keys s2) with ks. apply Forall_forall. intros k Hk. rewrite Forall_forall in F1, F2. specialize (F1 _ Hk). specialize (F2 _ Hk).
    destruct (sk_possible k) eqn:Ep; [|reflexivity]. destruct (F1 Ep). specialize (F2 eq_refl). lia. }
  split; [intros Hg; apply K; specialize (L2 Hg); lia|]. split; [intros; apply K; lia|]. repeat split.
Qed.

(** ** Simple keys *)
Lemma remove_at lv b s tx m : inv lv b s -> exists k r, simple_keys s = k :: r /\
  remove_simple_key (at_ s tx m) = (Ok tt, at_ (set_simple_keys (sk_off k :: r) s) tx m).
Proof.
  intros I. pose proof (i_count _ _ _ I) as Hc. pose proof (i_keys _ _ _ I) as Hk. destruct (simple_keys s) as [|k r] eqn:E; [cbn in Hc; lia|]. exists k, r. split; [reflexivity|].
  unfold remove_simple_key. change (simple_keys (at_ s tx m)) with (simple_keys s). rewrite E. inversion Hk as [|? ? K _]; subst.
  destruct (sk_possible k) eqn:Ep; [destruct (K Ep) as [-> _]|]; reflexivity.
Qed.
Lemma inv_keys lv b s ks : inv lv b s -> length ks = length (simple_keys s) -> Forall (key_ok b) ks -> inv lv b (set_simple_keys ks s).
Proof. intros [] Hl Hf. constructor; auto. change (simple_keys (set_simple_keys ks s)) with ks. rewrite Hl. assumption. Qed.
Lemma inv_off lv b s k r : inv lv b s -> simple_keys s = k :: r -> inv lv b (set_simple_keys (sk_off k :: r) s).
Proof. intros I E. apply inv_keys; [exact I|rewrite E; reflexivity|]. pose proof (i_keys _ _ _ I) as Hk. rewrite E in Hk. inversion Hk; subst. constructor; [intros H; discriminate H|assumption]. Qed.
Lemma save_at lv s tx m : inv lv (m_line m + 1) s -> exists ks, save_simple_key (at_ s tx m) = (Ok tt, at_ (set_simple_keys ks s) tx m) /\ inv lv (m_line m + 1) (set_simple_keys ks s).
Proof.
  intros I. unfold save_simple_key. rewrite bgt. cbv zeta.
  change (indent (at_ s tx m)) with (indent s). rewrite (i_indent _ _ _ I).
  replace (-1 =? bcol (at_ s tx m))%Z with false by (unfold bcol; lia). rewrite andb_false_r.
  change (simple_key_allowed (at_ s tx m)) with (simple_key_allowed s). destruct (simple_key_allowed s).
  - destruct (remove_at lv _ s tx m I) as (k & r & Ek & E). rewrite (bok _ _ _ _ _ E).
    eexists. split; [reflexivity|]. pose proof (inv_off _ _ _ _ _ I Ek) as I2.
    apply inv_keys; [exact I|rewrite Ek; reflexivity|]. constructor; [intros _; split; [reflexivity|cbn; lia]|].
    pose proof (i_keys _ _ _ I) as Hk. rewrite Ek in Hk. inversion Hk; subst. assumption.
  - exists (simple_keys s). split; [destruct s; reflexivity|]. apply inv_keys; [exact I|reflexivity|apply I].
Qed.
Lemma inv_allow lv b s a : inv lv b s -> inv lv b (set_simple_key_allowed a s).
Proof. intros []. constructor; auto. Qed.
Lemma inv_tokens lv b s a : inv lv b s -> inv lv b (set_tokens a s).
Proof. intros []. constructor; auto. Qed.

(** A token of one character. *)
Lemma indicator_at s d c t m : exists m', fetch_indicator 1 d (at_ s (c :: t) m) = (Ok tt, at_ (set_tokens (tokens s ++ [Mk_token d m m']) s) t m') /\ m_line m' = m_line m.
Proof. exists (advance (len_utf8 c) m). split; reflexivity. Qed.
(** What a token function does. *)
Definition fetches (f : M sst unit) (body rest : str) (d : token_data) (lv lv' : N) (s : sst) (m : mark) : Prop :=
  exists s2 m2, f (at_ s (body ++ rest) m) = (Ok tt, at_ s2 rest m2) /\ inv lv' (m_line m2 + 1) s2 /\ moved s d s2 /\ m_line m <= m_line m2.
Ltac mvd := constructor; [reflexivity|reflexivity|reflexivity|reflexivity|eexists _, _; reflexivity].

Lemma open_at d c rest lv s m : inv lv (m_line m + 1) s -> lv < 2147483647 -> fetches (fetch_flow_collection_start d) [c] rest d lv (lv + 1) s m.
Proof.
  intros I Hl. unfold fetch_flow_collection_start. destruct (save_at lv s ([c] ++ rest) m I) as (ks & E1 & I1). unfold fetches. rewrite (bok _ _ _ _ _ E1).
  set (s1 := set_simple_keys ks s) in *.
  assert (E2 : increase_flow_level (at_ s1 ([c] ++ rest) m) = (Ok tt, at_ (set_flow_level (flow_level s1 + 1) (set_simple_keys (Mk_sk false false 0 mark0 :: simple_keys s1) s1)) ([c] ++ rest) m)).
  { unfold increase_flow_level, modify, bind, gets. match goal with |- (if ?q then _ else _) _ = _ => replace q with false by (change (false = (flow_level s1 =? 2147483647)); rewrite (i_level _ _ _ I1); lia) end. reflexivity. }
  rewrite (bok _ _ _ _ _ E2). rewrite (bmod _ _ _ (at_ (set_simple_key_allowed true (set_flow_level (flow_level s1 + 1) (set_simple_keys (Mk_sk false false 0 mark0 :: simple_keys s1) s1))) ([c] ++ rest) m)) by reflexivity.
  cbn [app]. set (s2 := set_simple_key_allowed _ _). destruct (indicator_at s2 d c rest m) as (m' & E3 & L3). exists (set_tokens (tokens s2 ++ [Mk_token d m m']) s2), m'. split; [exact E3|]. split; [|split; [mvd|lia]].
  apply inv_tokens, inv_allow. rewrite L3. destruct I1. constructor; auto.
  - change (flow_level s1 + 1 = lv + 1). rewrite i_level0. reflexivity.
  - change (N.of_nat (S (length (simple_keys s1))) = lv + 1 + 1). lia.
  - cbn [simple_keys set_flow_level set_simple_keys]. constructor; [intros H; discriminate H|assumption].
Qed.
Lemma close_at d c rest lv s m : inv lv (m_line m + 1) s -> 0 < lv -> fetches (fetch_flow_collection_end d) [c] rest d lv (lv - 1) s m.
Proof.
  intros I Hl. unfold fetch_flow_collection_end. destruct (remove_at lv _ s ([c] ++ rest) m I) as (k & r & Ek & E1). unfold fetches. rewrite (bok _ _ _ _ _ E1).
  pose proof (inv_off _ _ _ _ _ I Ek) as I1. set (s1 := set_simple_keys (sk_off k :: r) s) in *.
  assert (E2 : decrease_flow_level (at_ s1 ([c] ++ rest) m) = (Ok tt, at_ (set_simple_keys r (set_flow_level (flow_level s1 - 1) s1)) ([c] ++ rest) m)).
  { unfold decrease_flow_level, modify. replace (flow_level (at_ s1 ([c] ++ rest) m) =? 0) with false by (change (flow_level (at_ s1 ([c] ++ rest) m)) with (flow_level s1); rewrite (i_level _ _ _ I1); lia). reflexivity. }
  rewrite (bok _ _ _ _ _ E2). rewrite (bmod _ _ _ (at_ (set_simple_key_allowed false (set_simple_keys r (set_flow_level (flow_level s1 - 1) s1))) ([c] ++ rest) m)) by reflexivity.
  cbn [app]. set (s2 := set_simple_key_allowed _ _). destruct (indicator_at s2 d c rest m) as (m' & E3 & L3). exists (set_tokens (tokens s2 ++ [Mk_token d m m']) s2), m'. split; [exact E3|]. split; [|split; [mvd|lia]].
  apply inv_tokens, inv_allow. rewrite L3. destruct I1. cbn [simple_keys set_simple_keys s1] in *. constructor; auto.
  - change (flow_level s1 - 1 = lv - 1). rewrite i_level0. reflexivity.
  - change (N.of_nat (length r) = lv - 1 + 1). cbn [length] in i_count0. lia.
  - cbn [simple_keys set_flow_level set_simple_keys]. inversion i_keys0; subst; assumption.
Qed.
(** The comma and the question mark. *)
Lemma comma_at c rest lv s m : inv lv (m_line m + 1) s -> fetches fetch_flow_entry [c] rest TFlowEntry lv lv s m.
Proof.
  intros I. unfold fetch_flow_entry. destruct (remove_at lv _ s ([c] ++ rest) m I) as (k & r & Ek & E1). unfold fetches. rewrite (bok _ _ _ _ _ E1).
  pose proof (inv_off _ _ _ _ _ I Ek) as I1. set (s1 := set_simple_keys (sk_off k :: r) s) in *.
  rewrite (bmod _ _ _ (at_ (set_simple_key_allowed true s1) ([c] ++ rest) m)) by reflexivity.
  cbn [app]. set (s2 := set_simple_key_allowed _ _). destruct (indicator_at s2 TFlowEntry c rest m) as (m' & E3 & L3). exists (set_tokens (tokens s2 ++ [Mk_token TFlowEntry m m']) s2), m'. split; [exact E3|]. split; [|split; [mvd|lia]].
  apply inv_tokens, inv_allow. rewrite L3. exact I1.
Qed.
Lemma key_at c rest lv s m : inv lv (m_line m + 1) s -> 0 < lv -> fetches fetch_key [c] rest TKey lv lv s m.
Proof.
  intros I Hl. unfold fetch_key. unfold fetches. rewrite bgt. change (flow_level (at_ s ([c] ++ rest) m)) with (flow_level s). rewrite (i_level _ _ _ I). replace (lv =? 0) with false by lia.
  rewrite (bok (ret tt) _ _ tt _ eq_refl).
  destruct (remove_at lv _ s ([c] ++ rest) m I) as (k & r & Ek & E1). rewrite (bok _ _ _ _ _ E1).
  pose proof (inv_off _ _ _ _ _ I Ek) as I1. set (s1 := set_simple_keys (sk_off k :: r) s) in *.
  rewrite (bmod _ _ _ (at_ (set_simple_key_allowed (flow_level s =? 0) s1) ([c] ++ rest) m)) by reflexivity.
  cbn [app]. set (s2 := set_simple_key_allowed _ _). destruct (indicator_at s2 TKey c rest m) as (m' & E3 & L3). exists (set_tokens (tokens s2 ++ [Mk_token TKey m m']) s2), m'. split; [exact E3|]. split; [|split; [mvd|lia]].
  apply inv_tokens, inv_allow. rewrite L3. exact I1.
Qed.
Lemma value_at c rest lv s m : inv lv (m_line m + 1) s -> 0 < lv -> Forall (fun k => sk_possible k = false) (simple_keys s) -> fetches fetch_value [c] rest TValue lv lv s m.
Proof.
  intros I Hl Hk. unfold fetch_value. unfold fetches. rewrite bgt. pose proof (i_count _ _ _ I) as Hc. change (simple_keys (at_ s ([c] ++ rest) m)) with (simple_keys s).
  destruct (simple_keys s) as [|k r] eqn:Ek; [cbn in Hc; lia|]. inversion Hk as [|? ? Hk1 _]; subst. rewrite Hk1.
  change (flow_level (at_ s ([c] ++ rest) m)) with (flow_level s). rewrite (i_level _ _ _ I). replace (lv =? 0) with false by lia.
  match goal with |- context [bind ?M ?K] => assert (E1 : M (at_ s ([c] ++ rest) m) = (Ok tt, at_ (set_simple_key_allowed (flow_level s =? 0) s) ([c] ++ rest) m)) by reflexivity end.
  rewrite (bok _ _ _ _ _ E1).
  cbn [app]. set (s2 := set_simple_key_allowed _ _). destruct (indicator_at s2 TValue c rest m) as (m' & E3 & L3). exists (set_tokens (tokens s2 ++ [Mk_token TValue m m']) s2), m'. split; [exact E3|]. split; [|split; [mvd|lia]].
  apply inv_tokens, inv_allow. rewrite L3. exact I.
Qed.
(** The markers of documents, and the end of the text. *)
Lemma marker_at d a b c rest s m : inv 0 (m_line m + 1) s -> fetches (fetch_document_indicator d) [a; b; c] rest d 0 0 s m.
Proof.
  intros I. unfold fetch_document_indicator. unfold fetches. 
  rewrite (bok _ _ _ _ _ (unroll_nil s _ m (-1) (i_indents _ _ _ I) (i_indent _ _ _ I) ltac:(lia))).
  destruct (remove_at 0 _ s ([a; b; c] ++ rest) m I) as (k & r & Ek & E1). rewrite (bok _ _ _ _ _ E1).
  pose proof (inv_off _ _ _ _ _ I Ek) as I1. set (s1 := set_simple_keys (sk_off k :: r) s) in *.
  rewrite (bmod _ _ _ (at_ (set_simple_key_allowed false s1) ([a; b; c] ++ rest) m)) by reflexivity.
  cbn [app]. set (s2 := set_simple_key_allowed _ _). set (m' := advance (len_utf8 c) (advance (len_utf8 b) (advance (len_utf8 a) m))). exists (set_tokens (tokens s2 ++ [Mk_token d m m']) s2), m'. split; [reflexivity|]. split; [|split; [mvd|cbn; lia]].
  apply inv_tokens, inv_allow. exact I1.
Qed.
Lemma end_at s m : inv 0 (m_line m + 1) s -> fetches fetch_stream_end [] [] TStreamEnd 0 0 s m.
Proof.
  intros I. unfold fetch_stream_end, fetches. cbn [app]. set (m1 := if m_col m =? 0 then m else Mk_mark (m_index m) (m_line m + 1) 0).
  assert (E0 : modify (fun s => if m_col (pos s) =? 0 then s else set_pos (Mk_mark (m_index (pos s)) (m_line (pos s) + 1) 0) s) (at_ s [] m) = (Ok tt, at_ s [] m1)).
  { unfold modify. change (pos (at_ s [] m)) with m. subst m1. destruct (m_col m =? 0); reflexivity. }
  rewrite (bok _ _ _ _ _ E0). assert (L : m_line m <= m_line m1) by (subst m1; destruct (m_col m =? 0); cbn; lia).
  rewrite (bok _ _ _ _ _ (unroll_nil s _ m1 (-1) (i_indents _ _ _ I) (i_indent _ _ _ I) ltac:(lia))).
  destruct (remove_at 0 _ s [] m1 I) as (k & r & Ek & E1). rewrite (bok _ _ _ _ _ E1).
  pose proof (inv_off _ _ _ _ _ I Ek) as I1. set (s1 := set_simple_keys (sk_off k :: r) s) in *.
  rewrite (bmod _ _ _ (at_ (set_simple_key_allowed false s1) [] m1)) by reflexivity.
  set (s2 := set_simple_key_allowed _ _). exists (set_tokens (tokens s2 ++ [Mk_token TStreamEnd m1 m1]) s2), m1. split; [reflexivity|]. split; [|split; [mvd|exact L]].
  apply inv_tokens, inv_allow. eapply inv_mono; [|exact I1]. lia.
Qed.
(** Tokens made by a scan_ function. *)
Definition scanned (f : M sst token) (body rest : str) (d : token_data) (s : sst) (m : mark) : Prop :=
  exists a b m2, f (at_ s (body ++ rest) m) = (Ok (Mk_token d a b), at_ s rest m2) /\ m_line m <= m_line m2.
Lemma saved_at (f : M sst token) body rest d lv s m : inv lv (m_line m + 1) s ->
  (forall s, ideal s -> flow_level s = lv -> scanned f body rest d s m) ->
  fetches (save_simple_key ;; modify (set_simple_key_allowed false) ;; push_scanned f) body rest d lv lv s m.
Proof.
  intros I H. unfold fetches. destruct (save_at lv s (body ++ rest) m I) as (ks & E1 & I1). rewrite (bok _ _ _ _ _ E1).
  set (s1 := set_simple_keys ks s) in *. rewrite (bmod _ _ _ (at_ (set_simple_key_allowed false s1) (body ++ rest) m)) by reflexivity.
  set (s2 := set_simple_key_allowed _ _). destruct (H s2 (i_ideal _ _ _ I1) (i_level _ _ _ I1)) as (a & b & m2 & E2 & L2).
  unfold push_scanned. rewrite (bok _ _ _ _ _ E2). exists (set_tokens (tokens s2 ++ [Mk_token d a b]) s2), m2. split; [reflexivity|]. split; [|split; [mvd|exact L2]].
  apply inv_tokens, inv_allow. eapply inv_mono; [|exact I1]. lia.
Qed.
Lemma directive_at body rest d s m : inv 0 (m_line m + 1) s -> (forall s, ideal s -> scanned scan_directive body rest d s m) -> fetches fetch_directive body rest d 0 0 s m.
Proof.
  intros I H. unfold fetch_directive, fetches.
  rewrite (bok _ _ _ _ _ (unroll_nil s _ m (-1) (i_indents _ _ _ I) (i_indent _ _ _ I) ltac:(lia))).
  destruct (remove_at 0 _ s (body ++ rest) m I) as (k & r & Ek & E1). rewrite (bok _ _ _ _ _ E1).
  pose proof (inv_off _ _ _ _ _ I Ek) as I1. set (s1 := set_simple_keys (sk_off k :: r) s) in *.
  rewrite (bmod _ _ _ (at_ (set_simple_key_allowed false s1) (body ++ rest) m)) by reflexivity.
  set (s2 := set_simple_key_allowed _ _). destruct (H s2 (i_ideal _ _ _ I1)) as (a & b & m2 & E2 & L2). rewrite (bok _ _ _ _ _ E2).
  exists (set_tokens (tokens s2 ++ [Mk_token d a b]) s2), m2. split; [reflexivity|]. split; [|split; [mvd|exact L2]].
  apply inv_tokens, inv_allow. eapply inv_mono; [|exact I1]. lia.
Qed.
