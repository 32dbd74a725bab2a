(** LexFetch.v -- the token queue covers the text read so far. *)
From Coq Require Import Lia ZifyBool ZifyNat ZifyN Bool.
From Verif Require Import Base Utf Chars State Reader Scanner Wp ReaderFacts ReadFacts ScanFacts Spec_Lexical LexBase LexScan LexNames LexQuoted LexPlain LexBlock.
Open Scope N_scope.

(** ** Covers *)
Definition depths (n : N) (l : list token) : N := fold_left (fun n t => flow_depth n (t_data t)) l n.
Lemma depths_app n l l' : depths n (l ++ l') = depths (depths n l) l'. Proof. apply fold_left_app. Qed.
Lemma covers_app T n p l q l' q' : covers T n p l q -> covers T (depths n l) q l' q' -> covers T n p (l ++ l') q'.
Proof. induction 1; intros X; [exact X|]. cbn [app]. econstructor; eauto. Qed.
Lemma covers_split T l l' : forall n p q', covers T n p (l ++ l') q' -> exists q, covers T n p l q /\ covers T (depths n l) q l' q'.
Proof.
  induction l as [|t l IH]; intros n p q' X; [exists p; split; [constructor|exact X]|]. cbn [app] in X. inversion X; subst.
  match goal with Y : covers _ _ _ (l ++ l') _ |- _ => destruct (IH _ _ _ Y) as (q & A & B) end. exists q. split; [econstructor; eauto|exact B].
Qed.
Lemma covers_one T n (p g w r : str) t : T = p ++ g ++ w ++ r -> gap p g (w ++ r) -> says (t_data t) w -> placed T (p ++ g) (p ++ g ++ w) t -> delimited n (p ++ g) (t_data t) w r ->
  covers T n p [t] (p ++ g ++ w).
Proof. intros. econstructor; eauto. constructor. Qed.
Definition last_tokens (d : token_data) : Prop := d = TBlockEnd \/ d = TStreamEnd.
(** A token of no width before another token. *)
Lemma covers_insert T n p l1 t l2 q d : covers T n p (l1 ++ t :: l2) q -> ~ last_tokens (t_data t) -> says d [] -> (forall n p r, delimited n p d [] r /\ flow_depth n d = n) ->
  covers T n p (l1 ++ Mk_token d (t_start t) (t_start t) :: t :: l2) q.
Proof.
  intros X Nt Sd Nd. destruct (covers_split _ _ _ _ _ _ X) as (q1 & A & B). eapply covers_app; [exact A|]. clear A X p. set (n1 := depths n l1) in *. clearbody n1. clear l1.
  inversion B as [|n0 q0 g w r t0 l0 q0' ET G Sw Pl Hend Rest]; subst n0 t0 l0 q0 q0'.
  assert (Ps : t_start t = position (q1 ++ g)) by (destruct Pl as [[E _]|(_ & _ & [E|E] & _)]; [exact E| |]; destruct Nt; [left|right]; exact E).
  apply (Cv_cons T n1 q1 g [] (w ++ r)); [exact ET|exact G|exact Sd| |apply Nd|].
  - left. cbn. rewrite app_nil_r. auto.
  - rewrite app_nil_r. cbn [t_data]. rewrite (proj2 (Nd n1 [] [])).
    assert (E1 : q1 ++ g ++ w = (q1 ++ g) ++ [] ++ w) by (cbn [app]; rewrite <- app_assoc; reflexivity).
    apply (Cv_cons T n1 (q1 ++ g) [] w r).
    + rewrite ET, <- app_assoc. reflexivity.
    + constructor.
    + exact Sw.
    + rewrite app_nil_r, <- E1. exact Pl.
    + rewrite app_nil_r. exact Hend.
    + rewrite <- E1. exact Rest.
Qed.

(** ** Simple keys *)
Section keys.
Variable L : list token.
Definition key_ok (pend : option mark) (k : simple_key) : Prop := sk_possible k = true ->
  (exists t, nth_error L (N.to_nat (sk_token k)) = Some t /\ t_start t = sk_mark k /\ ~ last_tokens (t_data t)) \/
  (pend = Some (sk_mark k) /\ sk_token k = N.of_nat (length L)).
Definition key_lt (a b : simple_key) : Prop := sk_possible a = true -> sk_possible b = true -> sk_token b < sk_token a.
Definition keys (pend : option mark) (ks : list simple_key) : Prop := Forall (key_ok pend) ks /\ ForallOrdPairs key_lt ks.
Lemma keys_off pend k ks : keys pend (k :: ks) -> keys pend (sk_off k :: ks).
Proof.
  intros [A B]. inversion B; subst. split; [constructor; [intros E; discriminate E|exact (Forall_inv_tail A)]|]. constructor; [|assumption].
  apply Forall_forall. intros y _ E. discriminate E.
Qed.
Lemma keys_tl pend ks : keys pend ks -> keys pend (tl ks).
Proof. intros [A B]. destruct ks as [|k ks]; [split; assumption|]. inversion B; subst. split; [exact (Forall_inv_tail A)|assumption]. Qed.
Lemma keys_false pend ks a b c : keys pend ks -> keys pend (Mk_sk false a b c :: ks).
Proof. intros [A B]. split; [constructor; [intros E; discriminate E|exact A]|]. constructor; [|exact B]. apply Forall_forall. intros y _ E. discriminate E. Qed.
Lemma keys_save ks b m k : keys None (k :: ks) -> keys (Some m) (Mk_sk true b (N.of_nat (length L)) m :: ks).
Proof.
  intros [A B]. apply Forall_inv_tail in A. inversion B; subst. split.
  - constructor; [intros _; right; split; reflexivity|]. eapply Forall_impl; [|exact A]. intros y Y P. destruct (Y P) as [Z|[Z _]]; [auto|discriminate].
  - constructor; [|assumption]. eapply Forall_impl; [|exact A]. cbv beta. intros y Y _ P. destruct (Y P) as [(t & Z & _)|[Z _]]; [|discriminate].
    cbn [sk_token]. assert (N.to_nat (sk_token y) < length L)%nat by (apply nth_error_Some; rewrite Z; discriminate). lia.
Qed.
Lemma stale_keys_keys m ks : forall pend ks' e, keys pend ks -> stale_keys m ks = (ks', e) -> keys pend ks' /\ (forall P : simple_key -> Prop, (forall k, P k -> P (sk_off k)) -> Forall P ks -> Forall P ks').
Proof.
  induction ks as [|k ks IH]; intros pend ks' e K E; cbn in E; [injection E as <- <-; auto|].
  destruct (stale_keys m ks) as [r' e'] eqn:Er. pose proof K as [A B]. inversion B; subst.
  destruct (IH pend r' e') as [K' F']; [split; [exact (Forall_inv_tail A)|assumption]|reflexivity|].
  assert (Kk : keys pend (k :: r')).
  { destruct K' as [A' B']. split; [constructor; [exact (Forall_inv A)|exact A']|]. constructor; [|exact B']. apply F'; [|assumption]. intros k0 X Y Z. discriminate Z. }
  assert (Fk : forall P : simple_key -> Prop, (forall k, P k -> P (sk_off k)) -> Forall P (k :: ks) -> Forall P (k :: r') /\ Forall P (sk_off k :: r')).
  { intros P Po F. pose proof (Forall_inv F) as F1. pose proof (F' P Po (Forall_inv_tail F)) as F2. split; constructor; auto. }
  destruct e' as [e'|]; [injection E as <- <-; split; [exact Kk|intros P Po F; apply (Fk P Po F)]|].
  destruct (sk_stale m k); [destruct (sk_required k)|]; injection E as <- <-.
  - split; [exact Kk|intros P Po F; apply (Fk P Po F)].
  - split; [apply keys_off, Kk|intros P Po F; apply (Fk P Po F)].
  - split; [exact Kk|intros P Po F; apply (Fk P Po F)].
Qed.
End keys.
Lemma keys_push L t pend ks : keys L pend ks -> (forall m, pend = Some m -> t_start t = m /\ ~ last_tokens (t_data t)) -> keys (L ++ [t]) None ks.
Proof.
  intros [A B] Hp. split; [|exact B]. eapply Forall_impl; [|exact A]. intros k K P. left. destruct (K P) as [(t' & X & Y)|[X Y]].
  - exists t'. split; [|exact Y]. rewrite nth_error_app1; [exact X|]. apply nth_error_Some. rewrite X. discriminate.
  - exists t. rewrite Y, Nat2N.id, nth_error_app2, Nat.sub_diag by lia. split; [reflexivity|]. destruct (Hp _ X). auto.
Qed.
Lemma keys_app L l ks : keys L None ks -> keys (L ++ l) None ks.
Proof. revert L. induction l as [|t l IH]; intros L K; [rewrite app_nil_r; exact K|]. change (t :: l) with ([t] ++ l). rewrite app_assoc. apply IH. apply (keys_push _ _ None); [exact K|discriminate]. Qed.
(** Insertion at the key on top of the stack. *)
Lemma keys_insert l1 t l2 k ks b : keys (l1 ++ l2) None (k :: ks) -> sk_possible k = true -> sk_token k = N.of_nat (length l1) ->
  keys (l1 ++ t :: l2) None (Mk_sk false b (sk_token k) (sk_mark k) :: ks).
Proof.
  intros [A B] P E. inversion B as [|? ? B1 B2]; subst. split.
  - constructor; [intros X; discriminate X|]. apply Forall_inv_tail in A. apply Forall_forall. intros y Hy Py. left.
    pose proof (proj1 (Forall_forall _ _) A y Hy Py) as Y. pose proof (proj1 (Forall_forall _ _) B1 y Hy P Py) as Lt. destruct Y as [(t' & Y1 & Y2)|[Y _]]; [|discriminate].
    exists t'. split; [|exact Y2]. assert (N.to_nat (sk_token y) < length l1)%nat by lia. rewrite nth_error_app1 in * by assumption. exact Y1.
  - constructor; [|exact B2]. apply Forall_forall. intros y _ X. discriminate X.
Qed.
Lemma keys_insert_off l1 t l2 k ks : keys (l1 ++ l2) None (sk_off k :: ks) -> Forall (fun y => sk_possible y = true -> sk_token y < N.of_nat (length l1)) ks ->
  keys (l1 ++ t :: l2) None (sk_off k :: ks).
Proof.
  intros [A B] F. inversion B as [|? ? B1 B2]; subst. split.
  - constructor; [intros X; discriminate X|]. apply Forall_inv_tail in A. apply Forall_forall. intros y Hy Py. left.
    pose proof (proj1 (Forall_forall _ _) A y Hy Py) as Y. pose proof (proj1 (Forall_forall _ _) F y Hy Py) as Lt. destruct Y as [(t' & Y1 & Y2)|[Y _]]; [|discriminate].
    exists t'. split; [|exact Y2]. assert (N.to_nat (sk_token y) < length l1)%nat by lia. rewrite nth_error_app1 in * by assumption. exact Y1.
  - constructor; [|exact B2]. apply Forall_forall. intros y _ X. discriminate X.
Qed.
