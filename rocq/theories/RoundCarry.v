(** RoundCarry.v -- what is true of a scanner with all of its text in the buffer is true of every
    scanner with the same text to come. *)
From Coq Require Import Lia ZifyBool ZifyNat ZifyN Bool.
From Verif Require Import Base Utf Chars State Reader Scanner Spec_Tokens Spec_Scanner Spec_Reader Spec_RoundTrip Utf8Facts Wp ReaderFacts ReadFacts Prop_Reader Chunk ScanFacts RoundScan.
Open Scope N_scope.

Lemma to_come_text s tx : to_come s tx <-> text [] tx s /\ enc s = Utf8.
Proof.
  split.
  - intros (i & x & Hs & Hc & He & Hy & Ht & Hu & Hf & Ho). apply utf8_text_encode in Hu. destruct Hu as [_ Hu]. split; [|exact He]. constructor.
    + unfold cleans. rewrite Hs. exact Hc.
    + apply yaml_okcs, Hy.
    + left. reflexivity.
    + intros H. rewrite Ht, (Hf H), app_nil_r. auto.
    + left. split; [exact He|]. unfold sb, limit. rewrite Hs. split; [exact Ho|]. exists x. rewrite app_nil_r. auto.
  - intros [T He]. pose proof (tx_clean _ _ _ T) as Hc. unfold cleans in Hc. destruct (src s) as [i|] eqn:Hs; [|contradiction].
    destruct (tx_bytes _ _ _ T) as [(_ & Ho & x & Ht & Hu)|(H & _)]; [|congruence]. unfold sb, limit in *. rewrite Hs in *. rewrite app_nil_r in Hu. exists i, x.
    split; [exact Hs|]. split; [exact Hc|]. split; [exact He|]. split; [eapply Forall_impl; [|exact (tx_ok _ _ _ T)]; intros ch; apply okc_yaml|]. split; [exact Ht|]. split.
    + apply utf8_text_encode. split; [|exact Hu]. pose proof (tx_ok _ _ _ T) as Hy. rewrite Ht in Hy. apply Forall_app in Hy. destruct Hy as [_ Hy].
      apply okcs_scalar, Hy.
    + split; [|exact Ho]. intros H. destruct (tx_eof _ _ _ T H) as [E _]. rewrite E in Ht. symmetry. apply (app_inv_head tx). rewrite app_nil_r. exact Ht.
Qed.
(** The reader's part of a scanner with all of [tx] in its buffer. *)
Definition full (tx : str) : rpart := Mk_r (Some (Mk_source [] [])) true tx Utf8 0.
Lemma full_J tx : Forall okc tx -> J Utf8 tx (full tx).
Proof.
  intros H. split; [|reflexivity]. constructor.
  - constructor.
  - exact H.
  - left. reflexivity.
  - auto.
  - left. split; [reflexivity|]. split; [reflexivity|]. exists []. rewrite app_nil_r. auto.
Qed.
Lemma full_ideal tx s : ideal (wr (full tx) s). Proof. repeat split. discriminate. Qed.
Lemma full_at tx s : wr (full tx) s = at_ (wr (full tx) s) tx (pos s). Proof. destruct s; reflexivity. Qed.
Lemma carry {A} k (m : M sst A) q Q s tx a rest p :
  Sim Utf8 k m q -> to_come s tx -> (k <= length (buffer s))%nat \/ buffer s = tx -> spec m s Q ->
  m (wr (full tx) s) = (Ok a, at_ p rest (pos p)) -> eof p = true ->
  exists s', m s = (Ok a, s') /\ to_come s' rest /\ s' = wr (rof s') p.
Proof.
  intros H T Hk Hf Hm Hp. apply to_come_text in T. destruct T as [T He].
  assert (J1 : J Utf8 tx (rof s)) by (split; [apply (proj1 (text_of _ s)), T|]; rewrite eff_eq, He; reflexivity).
  specialize (H tx s (full tx) J1 (full_J _ (tx_ok _ _ _ T))). unfold spec, wp in Hf.
  destruct (m s) as [r1 s1] eqn:Em. rewrite Hm in H.
  destruct H as [H|[H|(H & tx' & x' & A1 & A2 & A3 & _)]]; [split; [exact Hk|intros _; exact He]|split; [right; reflexivity|reflexivity]|subst r1; destruct Hf|discriminate|].
  subst r1. destruct Hf as [[Hf _] _]. exists s1. split; [reflexivity|].
  assert (Hx : rof (at_ p rest (pos p)) = x') by (rewrite A3; apply rof_wr).
  assert (Hr : tx' = rest).
  { destruct A2 as [T2 _]. destruct (tx_eof _ _ _ T2) as [E _]; [rewrite <- Hx; exact Hp|]. rewrite <- E, <- Hx. reflexivity. }
  subst tx'. split.
  - apply to_come_text. destruct A1 as [T1 E1]. split; [apply text_of, T1|]. rewrite (ae_enc _ _ Hf); [exact He|congruence].
  - assert (Hpos : pos p = pos s1) by (change (pos (at_ p rest (pos p)) = pos s1); rewrite A3; reflexivity).
    assert (E : at_ p rest (pos p) = wr x' s1) by exact A3. rewrite <- (wr_rof s1) at 1. rewrite <- (wr_wr (rof s1) x' s1), <- E. destruct p; reflexivity.
Qed.
