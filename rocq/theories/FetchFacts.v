(** FetchFacts.v -- the invariant of the scanner and its preservation by the fetch_ functions. *)
From Coq Require Import ZifyBool ZifyNat ZifyN.
From Verif Require Import Base Utf Chars State Reader Scanner Wp ReaderFacts Spec_Tokens ScanFacts TokFacts.

Ltac fld := cbn [src eof buffer enc offset pos stream_start_produced stream_end_produced flow_level tokens
  tokens_parsed token_available indents indent simple_key_allowed simple_keys debug_build
  set_src set_eof set_buffer set_enc set_offset set_pos set_stream_start_produced set_stream_end_produced
  set_flow_level set_tokens set_tokens_parsed set_token_available set_indents set_indent
  set_simple_key_allowed set_simple_keys] in *.

(** ** The invariant.  [del] is the list of tokens already delivered to the caller. *)
Definition all (del : list token) (s : sst) : list token := del ++ tokens s.

(** A possible simple key points between two tokens of the right marks. *)
Definition key_ok (del : list token) (s : sst) (k : simple_key) : Prop :=
  1 <= sk_token k /\ tokens_parsed s <= sk_token k /\ (N.to_nat (sk_token k) <= length (all del s))%nat /\
  ordered mark0 (firstn (N.to_nat (sk_token k)) (all del s)) (sk_mark k) /\
  ordered (sk_mark k) (skipn (N.to_nat (sk_token k)) (all del s)) (pos s) /\
  (lex_lt (sk_mark k) (pos s) \/ buffer s <> []).
Definition on (P : simple_key -> Prop) (k : simple_key) : Prop := sk_possible k = true -> P k.
Definition kle (k1 k2 : simple_key) : Prop :=
  sk_possible k1 = true -> sk_possible k2 = true -> sk_token k2 <= sk_token k1 /\ mark_le (sk_mark k2) (sk_mark k1).

(** The indentation stack: strictly decreasing, -1 at the bottom. *)
Fixpoint ind_ok (l : list Z) : Prop :=
  match l with
  | [] => False
  | x :: r => match r with [] => x = (-1)%Z | y :: _ => (y < x)%Z end /\ (r <> [] -> ind_ok r)
  end.

Definition is_start (t : token) : bool := match t_data t with TStreamStart _ => true | _ => false end.
Definition no_start (t : token) : Prop := is_start t = false.
Definition no_end (t : token) : Prop := is_stream_end t = false.

Record SInv (W : token_data -> Prop) (del : list token) (s : sst) : Prop := {
  si_src : src s <> None;
  si_okc : Forall okc (buffer s);
  si_encok : encok s;
  si_num : tokens_parsed s = N.of_nat (length del);
  si_fresh : stream_start_produced s = false ->
             flow_level s = 0 /\ simple_keys s = [] /\ all del s = [] /\ indents s = [];
  si_lvl : stream_start_produced s = true -> length (simple_keys s) = S (N.to_nat (flow_level s));
  si_ind : stream_start_produced s = true -> ind_ok (indent s :: indents s);
  si_head : stream_start_produced s = true ->
            exists t rest, all del s = t :: rest /\ is_start t = true /\ Forall no_start rest;
  si_bal : depth 0 (all del s) = Some (length (indents s));
  si_ord : ordered mark0 (all del s) (pos s);
  si_W : Forall (fun t => W (t_data t)) (all del s);
  si_keys : Forall (on (key_ok del s)) (simple_keys s);
  si_pairs : ForallOrdPairs kle (simple_keys s);
  si_avail : token_available s = true ->
             tokens s <> [] /\ Forall (on (fun k => sk_token k <> tokens_parsed s)) (simple_keys s);
  si_end : forall a t b, all del s = a ++ t :: b -> is_stream_end t = true ->
             b = [] /\ Forall (on (fun k => m_line (sk_mark k) < m_line (pos s))) (simple_keys s)
             /\ (flow_level s = 0 -> indents s = []);
  si_ended : stream_end_produced s = existsb is_stream_end del }.

(** While fetching: the stream has started and has not ended. *)
Definition IN (W : token_data -> Prop) (del : list token) (s : sst) : Prop :=
  SInv W del s /\ stream_start_produced s = true /\ Forall no_end (all del s) /\ token_available s = false.

(** ** Progress of a fetch: [a] tokens and indentation levels are added, [b] bounds the change of
    the flow level plus unread text, [c] that of the remaining input. *)
Definition ended (s : sst) : bool := stream_end_produced s || existsb is_stream_end (tokens s).
Definition b2z (b : bool) : Z := if b then 1%Z else 0%Z.
Definition mu (s : sst) : Z :=
  (Z.of_nat (meas s) + b2z (negb (stream_start_produced s)) + b2z (negb (ended s)))%Z.
Definition ti (s : sst) : Z := (Z.of_nat (length (tokens s)) + Z.of_nat (length (indents s)))%Z.
Record step (a b c : Z) (s s' : sst) : Prop := {
  st_ti : (ti s' <= ti s + a)%Z;
  st_fl : (Z.of_N (flow_level s') + Z.of_nat (vol s') <= Z.of_N (flow_level s) + Z.of_nat (vol s) + b)%Z;
  st_mu : (mu s' <= mu s + c)%Z;
  st_col : m_col (pos s') + N.of_nat (vol s') <= m_col (pos s) + N.of_nat (vol s);
  st_keys : forall k, In k (simple_keys s') -> sk_possible k = true ->
            In k (simple_keys s) \/ m_col (sk_mark k) <= m_col (pos s) + N.of_nat (vol s);
  st_idx : utf16 (enc s') = false -> m_index (pos s') + blen s' <= m_index (pos s) + blen s;
  st_enc : enc s <> EncAny -> enc s' = enc s;
  st_dbg : debug_build s' = debug_build s;
  st_pos : mark_le (pos s) (pos s');
  st_sep : stream_end_produced s' = stream_end_produced s;
  st_num : tokens_parsed s' = tokens_parsed s }.

Lemma step_trans a b c a' b' c' s1 s2 s3 : step a b c s1 s2 -> step a' b' c' s2 s3 ->
  step (a + a') (b + b') (c + c') s1 s3.
Proof.
  intros A B. destruct A, B. constructor; try lia.
  - intros k Hk Hp. destruct (st_keys1 k Hk Hp) as [H|H]; [auto|]. right. lia.
  - intros H. specialize (st_idx1 H). specialize (st_idx0 (utf16_mono _ _ st_enc1 H)). lia.
  - intros H. rewrite st_enc1; [auto|]. rewrite (st_enc0 H). exact H.
  - eapply mark_le_trans; eassumption.
Qed.
Lemma step_weaken a b c a' b' c' s1 s2 : step a b c s1 s2 -> (a <= a')%Z -> (b <= b')%Z -> (c <= c')%Z -> step a' b' c' s1 s2.
Proof. intros [] ? ? ?. constructor; auto; lia. Qed.

Lemma frame_eqs s s' : frame s' = frame s ->
  stream_start_produced s' = stream_start_produced s /\ stream_end_produced s' = stream_end_produced s /\
  flow_level s' = flow_level s /\ tokens s' = tokens s /\ tokens_parsed s' = tokens_parsed s /\
  token_available s' = token_available s /\ indents s' = indents s /\ indent s' = indent s /\
  simple_keys s' = simple_keys s /\ debug_build s' = debug_build s.
Proof. unfold frame. intros H. injection H. intros. repeat split; assumption. Qed.

Lemma step_adv s s' : adv s s' -> step 0 0 0 s s'.
Proof.
  intros [A [M1 M2 M3 M4]]. pose proof (advE_mark_le _ _ A) as Hle.
  destruct (frame_eqs _ _ (ae_frame _ _ A)) as (F1 & F2 & F3 & F4 & F5 & F6 & F7 & F8 & F9 & F10).
  constructor; auto; try (unfold ti, mu, ended; rewrite ?F1, ?F2, ?F3, ?F4, ?F7; lia).
  - intros k. rewrite F9. auto.
  - apply A.
Qed.
Lemma step_adv1 s s' : adv s s' -> strict s s' -> step 0 (-1) (-1) s s'.
Proof.
  intros A [S1 [S2 S3]]. pose proof (step_adv _ _ A) as B. destruct A as [A _].
  destruct (frame_eqs _ _ (ae_frame _ _ A)) as (F1 & F2 & F3 & F4 & F5 & F6 & F7 & F8 & F9 & F10).
  destruct B. constructor; auto; unfold mu, ended in *; rewrite ?F1, ?F2, ?F3, ?F4 in *; lia.
Qed.

(** Steps that do not touch the input. *)
Definition same_io (s s' : sst) : Prop :=
  src s' = src s /\ buffer s' = buffer s /\ enc s' = enc s /\ pos s' = pos s /\ debug_build s' = debug_build s
  /\ stream_end_produced s' = stream_end_produced s /\ tokens_parsed s' = tokens_parsed s /\ eof s' = eof s.
Lemma step_same a b s s' : same_io s s' -> stream_start_produced s' = stream_start_produced s ->
  (ti s' <= ti s + a)%Z -> (existsb is_stream_end (tokens s) = true -> existsb is_stream_end (tokens s') = true) ->
  (Z.of_N (flow_level s') <= Z.of_N (flow_level s) + b)%Z ->
  (forall k, In k (simple_keys s') -> sk_possible k = true ->
     In k (simple_keys s) \/ m_col (sk_mark k) <= m_col (pos s)) -> step a b 0 s s'.
Proof.
  intros (I1 & I2 & I3 & I4 & I5 & I6 & I7 & I8) Hst Hti Hend Hfl Hk.
  assert (Hm : meas s' = meas s) by (unfold meas; rewrite I1, I2; reflexivity).
  assert (Hv : vol s' = vol s) by (unfold vol, sbytes; rewrite I1, I2; reflexivity).
  assert (Hb : blen s' = blen s) by (unfold blen, sbytes; rewrite I1, I2; reflexivity).
  constructor; rewrite ?Hv, ?Hb, ?I3, ?I4; auto; try lia.
  - unfold mu, ended. rewrite Hm, Hst, I6. unfold b2z.
    destruct (stream_end_produced s), (existsb _ (tokens s)); try lia; cbn [negb orb]; rewrite ?Hend by reflexivity; destruct (existsb _ (tokens s')); cbn [negb orb]; lia.
  - intros k Hk1 Hk2. destruct (Hk k Hk1 Hk2); [auto|right; lia].
  - apply mark_le_refl.
Qed.

(** ** Preservation *)

Lemma Forall_on (P Q : simple_key -> Prop) l : Forall (on P) l -> (forall k, sk_possible k = true -> P k -> Q k) -> Forall (on Q) l.
Proof. intros H HPQ. eapply Forall_impl; [|exact H]. unfold on. auto. Qed.

Lemma lex_lt_le a b c : lex_lt a b -> mark_le b c -> lex_lt a c.
Proof. unfold lex_lt, mark_le. lia. Qed.
Lemma le_lex_lt a b c : mark_le a b -> lex_lt b c -> lex_lt a c.
Proof. unfold lex_lt, mark_le. lia. Qed.

Lemma SInv_io W del s s' : SInv W del s -> advE s s' -> SInv W del s'.
Proof.
  intros I A. pose proof (advE_mark_le _ _ A) as Hle.
  destruct (frame_eqs _ _ (ae_frame _ _ A)) as (F1 & F2 & F3 & F4 & F5 & F6 & F7 & F8 & F9 & F10).
  assert (Ha : all del s' = all del s) by (unfold all; rewrite F4; reflexivity).
  destruct I. constructor; rewrite ?F1, ?F2, ?F3, ?F4, ?F5, ?F6, ?F7, ?F8, ?F9, ?Ha; auto.
  - apply A, si_src0.
  - apply A, si_okc0.
  - apply (ae_encok _ _ A), si_encok0.
  - eapply ordered_hi; eassumption.
  - eapply Forall_on; [exact si_keys0|]. intros k _ (K1 & K2 & K3 & K4 & K5 & K6). unfold key_ok. rewrite Ha, F5.
    split; [exact K1|]. split; [exact K2|]. split; [exact K3|]. split; [exact K4|].
    split; [eapply ordered_hi; eassumption|].
    destruct (ae_pos _ _ A) as [[Hp [x Hx]]|Hp].
    + rewrite Hp. destruct K6 as [K6|K6]; [auto|right]. rewrite Hx. destruct (buffer s); [contradiction|discriminate].
    + left. eapply le_lex_lt; [eapply ordered_le, K5|apply Hp].
  - intros a t b H1 H2. destruct (si_end0 a t b H1 H2) as (E1 & E2 & E3). split; [exact E1|]. split; [|exact E3].
    eapply Forall_on; [exact E2|]. intros k _ Hk. cbn beta in *. unfold mark_le in Hle. lia.
Qed.
Lemma IN_io W del s s' : IN W del s -> advE s s' -> IN W del s'.
Proof.
  intros (I & I1 & I2 & I3) A. split; [eapply SInv_io; eassumption|].
  destruct (frame_eqs _ _ (ae_frame _ _ A)) as (F1 & F2 & F3 & F4 & F5 & F6 & _).
  unfold all. rewrite F1, F4, F6. auto.
Qed.

Lemma no_end_split W del s : SInv W del s -> Forall no_end (all del s) ->
  forall a t b, all del s = a ++ t :: b -> is_stream_end t = true -> False.
Proof.
  intros _ H a t b He Ht. rewrite He in H. apply Forall_app in H. destruct H as [_ H]. inversion H. unfold no_end in *. congruence.
Qed.

(** Changing the simple keys (and the flow level). *)
Lemma IN_keys W del s fl ks : IN W del s -> length ks = S (N.to_nat fl) ->
  Forall (on (key_ok del s)) ks -> ForallOrdPairs kle ks ->
  IN W del (set_simple_keys ks (set_flow_level fl s)).
Proof.
  intros (I & I1 & I2 & I3) Hl Hk Hp.
  split; [|split; [exact I1|split; [exact I2|exact I3]]]. destruct I. constructor; fld; auto.
  - congruence.
  - congruence.
  - intros a t b H1 H2. exfalso. rewrite Forall_forall in I2.
    assert (Hn : no_end t) by (apply I2; unfold all in *; fld; rewrite H1; apply in_elt). unfold no_end in Hn. congruence.
Qed.
Lemma set_fl_id s : set_flow_level (flow_level s) s = s.
Proof. destruct s; reflexivity. Qed.

(** Turning keys off. *)
Definition koff (k k' : simple_key) : Prop := k' = k \/ k' = sk_off k.
Lemma koff_Forall P ks ks' : Forall2 koff ks ks' -> Forall (on P) ks -> Forall (on P) ks'.
Proof.
  induction 1 as [|k k' ks ks' H H1 IH]; intros HF; [constructor|]. inversion HF; subst. constructor; [|auto].
  destruct H as [-> | ->]; [assumption|]. intros Hp. discriminate.
Qed.
Lemma koff_pairs ks ks' : Forall2 koff ks ks' -> ForallOrdPairs kle ks -> ForallOrdPairs kle ks'.
Proof.
  induction 1 as [|k k' ks ks' H H1 IH]; intros HF; [constructor|]. inversion HF as [|? ? Hf Hr]; subst. constructor; [|auto].
  clear IH HF Hr. destruct H as [-> | ->].
  - induction H1 as [|q q' qs qs' Hq _ IH2]; [constructor|]. inversion Hf; subst. constructor; [|auto].
    destruct Hq as [-> | ->]; [assumption|]. intros _ Hp. discriminate.
  - rewrite Forall_forall. intros q _ Hp. discriminate.
Qed.
Lemma koff_refl ks : Forall2 koff ks ks.
Proof. induction ks; constructor; auto. left. reflexivity. Qed.
Lemma koff_in ks ks' k : Forall2 koff ks ks' -> In k ks' -> sk_possible k = true -> In k ks.
Proof.
  induction 1 as [|q q' qs qs' Hq _ IH]; intros Hi Hp; [exact Hi|]. destruct Hi as [<-|Hi]; [|right; auto].
  destruct Hq as [-> | ->]; [left; reflexivity|discriminate].
Qed.
Lemma koff_length ks ks' : Forall2 koff ks ks' -> length ks = length ks'.
Proof. induction 1; cbn; congruence. Qed.
Lemma SInv_koff W del s ks : SInv W del s -> Forall2 koff (simple_keys s) ks -> SInv W del (set_simple_keys ks s).
Proof.
  intros I Hk. pose proof (koff_length _ _ Hk) as Hlen. destruct I. constructor; fld; auto.
  - intros H. destruct (si_fresh0 H) as (F1 & F2 & F3 & F4). rewrite F2 in Hk. inversion Hk. auto.
  - rewrite <- Hlen. auto.
  - apply (koff_Forall (key_ok del s) (simple_keys s)); assumption.
  - eapply koff_pairs; eassumption.
  - intros H. destruct (si_avail0 H) as [H1 H2]. split; [exact H1|].
    eapply koff_Forall; eassumption.
  - intros a t b H1 H2. destruct (si_end0 a t b H1 H2) as (E1 & E2 & E3). split; [exact E1|]. split; [|exact E3].
    eapply koff_Forall; eassumption.
Qed.
Lemma IN_koff W del s ks : IN W del s -> Forall2 koff (simple_keys s) ks -> IN W del (set_simple_keys ks s).
Proof. intros (I & I1 & I2 & I3) Hk. split; [apply SInv_koff; assumption|auto]. Qed.
Lemma step_koff s ks : Forall2 koff (simple_keys s) ks -> step 0 0 0 s (set_simple_keys ks s).
Proof.
  intros Hk. apply step_same; fld; auto; try lia.
  - unfold same_io. fld. auto 10.
  - unfold ti. fld. lia.
  - intros k H1 H2. left. eapply koff_in; eassumption.
Qed.
Lemma stale_keys_koff m ks : Forall2 koff ks (fst (stale_keys m ks)).
Proof.
  induction ks as [|k ks IH]; cbn [stale_keys]; [constructor|]. destruct (stale_keys m ks) as [r' [e|]].
  - constructor; [left; reflexivity|exact IH].
  - destruct (sk_stale m k); [destruct (sk_required k)|]; constructor; try exact IH; [left|right|left]; reflexivity.
Qed.
Lemma stale_keys_none m ks : snd (stale_keys m ks) = None ->
  Forall (fun k => sk_stale m k = false) (fst (stale_keys m ks)).
Proof.
  induction ks as [|k ks IH]; cbn [stale_keys]; [constructor|]. destruct (stale_keys m ks) as [r' [e|]]; [discriminate|].
  destruct (sk_stale m k) eqn:E; [destruct (sk_required k); [discriminate|]|]; cbn; intros _; constructor; auto.
Qed.
Lemma stale_keys_some m ks e : snd (stale_keys m ks) = Some e -> exists k, In k ks /\ sk_possible k = true /\ e = sk_mark k.
Proof.
  induction ks as [|k ks IH]; cbn [stale_keys]; [discriminate|]. destruct (stale_keys m ks) as [r' [e'|]].
  - intros H. destruct (IH H) as (q & Hq & Hp). exists q. split; [right; exact Hq|exact Hp].
  - destruct (sk_stale m k) eqn:E; [destruct (sk_required k)|]; cbn; intros H; try discriminate.
    exists k. split; [left; reflexivity|]. split; [|congruence]. unfold sk_stale in E. lia.
Qed.

(** Adding a token at the end of the queue, with a change of the indentation. *)
Definition set_ind (i : Z) (is : list Z) (s : sst) : sst := set_indents is (set_indent i s).
Lemma set_ind_id s : set_ind (indent s) (indents s) s = s.
Proof. destruct s; reflexivity. Qed.
Definition add_tok (t : token) (s : sst) : sst := set_tokens (tokens s ++ [t]) s.

Lemma IN_push W del s0 s t i is : IN W del s0 -> advE s0 s ->
  t_start t = pos s0 -> mark_le (t_start t) (t_end t) -> mark_le (t_end t) (pos s) ->
  W (t_data t) -> no_start t -> no_end t ->
  depth (length (indents s)) [t] = Some (length is) -> ind_ok (i :: is) ->
  IN W del (add_tok t (set_ind i is s)).
Proof.
  intros I0 A Hs1 Hs2 Hs3 HW Hns Hne Hd Hi. pose proof (IN_io _ _ _ _ I0 A) as (I & I1 & I2 & I3).
  destruct I0 as (I0 & _).
  assert (Ha : all del (add_tok t (set_ind i is s)) = all del s ++ [t]) by (unfold all, add_tok, set_ind; fld; apply app_assoc).
  assert (Ha0 : all del s = all del s0).
  { unfold all. destruct (frame_eqs _ _ (ae_frame _ _ A)) as (F1 & F2 & F3 & F4 & _). rewrite F4. reflexivity. }
  assert (Hk0 : simple_keys s = simple_keys s0) by apply (frame_eqs _ _ (ae_frame _ _ A)).
  assert (Hall : Forall no_end (all del s ++ [t])) by (apply Forall_app; split; [exact I2|repeat constructor; exact Hne]).
  split; [|split; [exact I1|split; [rewrite Ha; exact Hall|exact I3]]].
  pose proof (si_ord _ _ _ I0) as Ho. pose proof (si_keys _ _ _ I0) as Hk.
  set (s' := add_tok t (set_ind i is s)) in *.
  assert (Hsk : simple_keys s' = simple_keys s) by reflexivity.
  assert (Hpos : pos s' = pos s) by reflexivity.
  assert (Htp : tokens_parsed s' = tokens_parsed s) by reflexivity.
  assert (Hbuf : buffer s' = buffer s) by reflexivity.
  destruct I. constructor; rewrite ?Ha, ?Hsk, ?Hpos, ?Htp, ?Hbuf; auto.
  - intros H. exfalso. change (stream_start_produced s = false) in H. congruence.
  - intros _. destruct (si_head0 I1) as (x & rest & E & E1 & E2). exists x, (rest ++ [t]). rewrite E. split; [reflexivity|].
    split; [exact E1|]. apply Forall_app. auto.
  - rewrite depth_app, si_bal0. exact Hd.
  - rewrite Ha0. eapply ordered_app; [exact Ho|]. cbn [ordered]. rewrite <- Hs1. split; [apply mark_le_refl|auto].
  - apply Forall_app. auto.
  - rewrite Hk0. rewrite Forall_forall in Hk. apply Forall_forall. intros k Hin Hp.
    rewrite Forall_forall in si_keys0. rewrite Hk0 in si_keys0. specialize (si_keys0 k Hin Hp).
    specialize (Hk k Hin Hp). unfold key_ok in *. rewrite Ha, Hpos, Htp, Hbuf. rewrite Ha0 in *.
    destruct si_keys0 as (K1 & K2 & K3 & K4 & K5 & K6). destruct Hk as (_ & _ & _ & _ & L5 & _).
    split; [exact K1|]. split; [exact K2|]. split; [rewrite app_length; lia|].
    rewrite firstn_app, skipn_app.
    replace (N.to_nat (sk_token k) - length (all del s0))%nat with 0%nat by lia.
    split; [cbn [firstn]; rewrite app_nil_r; exact K4|]. split; [|exact K6].
    eapply ordered_app; [exact L5|]. cbn [ordered skipn]. rewrite <- Hs1. split; [apply mark_le_refl|auto].
  - intros H. exfalso. change (token_available s = true) in H. congruence.
  - intros a x b H1 H2. exfalso. rewrite H1 in Hall. apply Forall_app in Hall. destruct Hall as [_ Hall].
    inversion Hall. unfold no_end in *. congruence.
Qed.
Lemma IN_push0 W del s0 s t : IN W del s0 -> advE s0 s ->
  t_start t = pos s0 -> mark_le (t_start t) (t_end t) -> mark_le (t_end t) (pos s) ->
  W (t_data t) -> no_start t -> no_end t -> opens (t_data t) = false -> closes (t_data t) = false ->
  IN W del (add_tok t s).
Proof.
  intros I0 A Hs1 Hs2 Hs3 HW Hns Hne Ho Hc. rewrite <- (set_ind_id s).
  eapply IN_push; eauto.
  - cbn [depth]. rewrite Ho, Hc. reflexivity.
  - pose proof (IN_io _ _ _ _ I0 A) as (I & I1 & _). apply (si_ind _ _ _ I I1).
Qed.
Lemma step_push s t i is : 
  step (1 + Z.of_nat (length is) - Z.of_nat (length (indents s))) 0 0 s (add_tok t (set_ind i is s)).
Proof.
  unfold add_tok, set_ind. apply step_same; fld; auto; try lia.
  - unfold same_io; fld; auto 10.
  - unfold ti. fld. rewrite app_length. cbn [length]. lia.
  - rewrite existsb_app. intros ->. reflexivity.
Qed.
Lemma step_push0 s t : step 1 0 0 s (add_tok t s).
Proof.
  pose proof (step_push s t (indent s) (indents s)) as H. rewrite set_ind_id in H.
  eapply step_weaken; [exact H|lia|lia|lia].
Qed.

(** Inserting tokens at the place of the current simple key. *)
Definition place (del : list token) (s : sst) (j : nat) (m : mark) : Prop :=
  (1 <= j)%nat /\ (N.to_nat (tokens_parsed s) <= j)%nat /\ (j <= length (all del s))%nat /\
  ordered mark0 (firstn j (all del s)) m /\ ordered m (skipn j (all del s)) (pos s) /\
  Forall (on (fun k => sk_token k <= N.of_nat j /\ mark_le (sk_mark k) m)) (simple_keys s).

Lemma IN_ins W del s j m d i is : IN W del s -> place del s j m ->
  W d -> (forall a b, no_start (Mk_token d a b)) -> (forall a b, no_end (Mk_token d a b)) -> closes d = false ->
  length is = (if opens d then S (length (indents s)) else length (indents s)) -> ind_ok (i :: is) ->
  let s' := set_tokens (firstn (j - length del) (tokens s) ++ Mk_token d m m :: skipn (j - length del) (tokens s)) (set_ind i is s) in
  IN W del s' /\ place del s' j m.
Proof.
  intros (I & I1 & I2 & I3) (P1 & P2 & P3 & P4 & P5 & P6) HW Hns Hne Hc Hlen Hi. cbn zeta.
  set (t := Mk_token d m m). set (s' := set_tokens _ _).
  assert (Hdel : length del = N.to_nat (tokens_parsed s)) by (rewrite (si_num _ _ _ I); lia).
  assert (Ha : all del s' = ins j t (all del s)).
  { unfold all, s', set_ind in *. fld. rewrite ins_app; [f_equal; lia|]. rewrite app_length in P3. lia. }
  assert (Hall : Forall no_end (ins j t (all del s))) by (apply ins_Forall; [apply Hne|exact I2]).
  assert (Hsk : simple_keys s' = simple_keys s) by reflexivity.
  assert (Hpos : pos s' = pos s) by reflexivity.
  assert (Htp : tokens_parsed s' = tokens_parsed s) by reflexivity.
  assert (Hbuf : buffer s' = buffer s) by reflexivity.
  assert (Hins : forall j2 m2, (j2 <= j)%nat -> mark_le m2 m ->
     ordered mark0 (firstn j2 (all del s)) m2 -> ordered m2 (skipn j2 (all del s)) (pos s) ->
     ordered mark0 (firstn j2 (ins j t (all del s))) m2 /\ ordered m2 (skipn j2 (ins j t (all del s))) (pos s)).
  { intros j2 m2 Hj Hm O1 O2. rewrite ins_firstn_lt, ins_skipn_le by assumption. split; [exact O1|].
    destruct (split_mid j2 j (all del s) Hj) as [E1 E2]. rewrite E1 in P4. rewrite E2 in O2.
    eapply ordered_app with (mid := m).
    - (* the middle part *)
      clear - P4 O2 Hm. set (mid := skipn j2 (firstn j (all del s))) in *. clearbody mid.
      destruct mid as [|x mid]; cbn [ordered app] in *; [exact Hm|]. destruct O2 as (O2 & _).
      split; [exact O2|]. clear - P4. revert P4. generalize (firstn j2 (all del s)) as A, mark0 as lo.
      induction A as [|y A IH]; cbn [ordered app]; intros lo H; [tauto|]. apply (IH (t_end y)). tauto.
    - cbn [ordered]. split; [apply mark_le_refl|]. split; [apply mark_le_refl|exact P5]. }
  split.
  - split; [|split; [exact I1|split; [rewrite Ha; exact Hall|exact I3]]].
    destruct I. constructor; rewrite ?Ha, ?Hsk, ?Hpos, ?Htp, ?Hbuf; auto.
    + intros H. exfalso. change (stream_start_produced s = false) in H. congruence.
    + intros _. destruct (si_head0 I1) as (x & rest & E & E1 & E2). rewrite E. destruct j as [|j]; [lia|].
      exists x, (ins j t rest). unfold ins. cbn [firstn skipn app]. split; [reflexivity|]. split; [exact E1|].
      apply ins_Forall; [apply Hns|exact E2].
    + change (indents s') with is. rewrite Hlen. destruct (opens d) eqn:Eo.
      * apply depth_ins_open; [exact Eo|exact si_bal0].
      * rewrite depth_ins_neutral; [exact si_bal0|exact Eo|exact Hc].
    + unfold ins. eapply ordered_app; [exact P4|]. cbn [ordered]. split; [apply mark_le_refl|]. split; [apply mark_le_refl|exact P5].
    + apply ins_Forall; [exact HW|exact si_W0].
    + rewrite Forall_forall in *. intros k Hin Hp. specialize (si_keys0 k Hin Hp). destruct (P6 k Hin Hp) as [Q1 Q2].
      unfold key_ok in *. rewrite Ha, Hpos, Htp, Hbuf. destruct si_keys0 as (K1 & K2 & K3 & K4 & K5 & K6).
      split; [exact K1|]. split; [exact K2|]. split; [rewrite ins_length by assumption; lia|].
      destruct (Hins (N.to_nat (sk_token k)) (sk_mark k)) as [R1 R2]; auto; try lia.
    + intros H. exfalso. change (token_available s = true) in H. congruence.
    + intros a x b H1 H2. exfalso. rewrite H1 in Hall. apply Forall_app in Hall. destruct Hall as [_ Hall].
      inversion Hall. unfold no_end in *. congruence.
  - unfold place. rewrite Ha, Hsk, Hpos, Htp, ins_length by assumption.
    destruct (Hins j m (le_n _) (mark_le_refl _) P4 P5) as [R1 R2].
    split; [exact P1|]. split; [exact P2|]. split; [lia|]. auto.
Qed.
Lemma step_ins s j t i is : 
  step (1 + Z.of_nat (length is) - Z.of_nat (length (indents s))) 0 0 s
    (set_tokens (firstn j (tokens s) ++ t :: skipn j (tokens s)) (set_ind i is s)).
Proof.
  unfold set_ind. apply step_same; fld; auto; try lia.
  - unfold same_io; fld; auto 10.
  - unfold ti. fld. rewrite app_length. cbn [length]. pose proof (firstn_skipn j (tokens s)) as H.
    apply (f_equal (@length _)) in H. rewrite app_length in H. lia.
  - rewrite <- (firstn_skipn j (tokens s)) at 1. rewrite !existsb_app. cbn [existsb].
    destruct (existsb _ (firstn j (tokens s))); [reflexivity|]. cbn [orb]. intros ->. apply orb_true_r.
Qed.

(** Unrolling the indentation. *)
Lemma ind_ok_bound l : ind_ok l -> Forall (fun x => (-1 <= x)%Z) l.
Proof.
  induction l as [|x [|y r] IH]; cbn [ind_ok]; intros H; [constructor| |].
  - constructor; [lia|constructor].
  - destruct H as [H1 H2]. assert (Hr : ind_ok (y :: r)) by (apply H2; discriminate). specialize (IH Hr).
    constructor; [|exact IH]. inversion IH. lia.
Qed.
Lemma ind_ok_push c i is : ind_ok (i :: is) -> (i < c)%Z -> ind_ok (c :: i :: is).
Proof. intros H Hc. cbn [ind_ok] in *. split; [exact Hc|]. auto. Qed.
Lemma ind_ok_tl i y r : ind_ok (i :: y :: r) -> ind_ok (y :: r).
Proof. cbn [ind_ok]. intros [_ H]. apply H. discriminate. Qed.
Lemma ind_ok_neg1 is i : ind_ok (i :: is) -> (i <= -1)%Z -> is = [] /\ i = (-1)%Z.
Proof.
  intros H Hi. destruct is as [|y r]; [cbn in H; split; [reflexivity|lia]|].
  pose proof (ind_ok_bound _ H) as Hb. cbn [ind_ok] in H. inversion Hb as [|? ? ? Hb']; subst. inversion Hb'; subst. lia.
Qed.

Lemma unroll_IN (W : token_data -> Prop) (del : list token) col : W TBlockEnd -> (-1 <= col)%Z -> forall n s, length (indents s) = n -> IN W del s ->
  match unroll_go col (indent s) (indents s) (pos s) (tokens s) with
  | (p, i, st, toks) =>
      let s' := set_tokens toks (set_indents st (set_indent i s)) in
      p = None /\ IN W del s' /\ step 0 0 0 s s' /\ (i <= col)%Z /\ simple_keys s' = simple_keys s
      /\ flow_level s' = flow_level s
  end.
Proof.
  intros HW Hcol. induction n as [|n IH]; intros s Hn I.
  - assert (Hi : ind_ok (indent s :: indents s)) by (apply I; apply I).
    destruct (indents s) as [|? ?] eqn:E; [|discriminate]. cbn in Hi. cbn [unroll_go]. 
    destruct (Z.ltb_spec col (indent s)); [lia|]. cbn zeta. split; [reflexivity|].
    replace (set_tokens (tokens s) (set_indents [] (set_indent (indent s) s))) with s by (rewrite <- E; destruct s; reflexivity).
    split; [exact I|]. split; [apply step_adv, adv_refl|]. auto.
  - assert (Hi : ind_ok (indent s :: indents s)) by (apply I; apply I).
    destruct (indents s) as [|y r] eqn:E; [discriminate|]. cbn [unroll_go].
    destruct (Z.ltb_spec col (indent s)).
    + set (t := Mk_token TBlockEnd (pos s) (pos s)).
      assert (I' : IN W del (add_tok t (set_ind y r s))).
      { apply (IN_push W del s s); auto; try apply mark_le_refl; try reflexivity.
        - apply advE_refl.
        - rewrite E. reflexivity.
        - eapply ind_ok_tl; eassumption. }
      cbn [length] in Hn. specialize (IH (add_tok t (set_ind y r s))). unfold add_tok, set_ind in *. fld.
      specialize (IH ltac:(lia) I').
      destruct (unroll_go col y r (pos s) (tokens s ++ [t])) as [[[p i] st] toks]. cbn zeta in *. fld.
      destruct IH as (J1 & J2 & J3 & J4 & J5 & J6).
      split; [exact J1|]. split; [exact J2|]. split; [|auto].
      eapply step_weaken with (a := (0 + 0)%Z) (b := (0 + 0)%Z) (c := (0 + 0)%Z); [|lia..].
      eapply step_trans; [|exact J3]. pose proof (step_push s t y r) as HS. unfold add_tok, set_ind in HS. fld.
      rewrite E in HS. eapply step_weaken; [exact HS|cbn [length]; lia..].
    + cbn zeta. split; [reflexivity|].
      replace (set_tokens (tokens s) (set_indents (y :: r) (set_indent (indent s) s))) with s by (rewrite <- E; destruct s; reflexivity).
      split; [exact I|]. split; [apply step_adv, adv_refl|]. auto.
Qed.
