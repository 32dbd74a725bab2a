(** Utf8Facts.v -- the UTF-8 codec: validation accepts exactly the encodings of scalar values. *)
From Coq Require Import ZifyBool ZifyNat ZifyN.
From Verif Require Import Base Utf.
Ltac Zify.zify_post_hook ::= Z.div_mod_to_equations.

Lemma encode_utf8_app a b : encode_utf8 (a ++ b) = encode_utf8 a ++ encode_utf8 b.
Proof. unfold encode_utf8. apply flat_map_app. Qed.
Lemma encode_utf8_cons c r : encode_utf8 (c :: r) = encode_utf8_char c ++ encode_utf8 r.
Proof. reflexivity. Qed.
Lemma encode_char_len c : N.of_nat (length (encode_utf8_char c)) = len_utf8 c.
Proof. unfold encode_utf8_char, len_utf8. destruct (c <? 128), (c <? 2048), (c <? 65536); reflexivity. Qed.
Lemma encode_len s : N.of_nat (length (encode_utf8 s)) = str_len s.
Proof.
  induction s as [|c s IH]; [reflexivity|]. rewrite encode_utf8_cons, app_length. cbn [str_len].
  rewrite <- IH, <- encode_char_len. lia.
Qed.
Lemma encode_char_ne c : encode_utf8_char c <> [].
Proof. unfold encode_utf8_char. destruct (c <? 128), (c <? 2048), (c <? 65536); discriminate. Qed.
Lemma encode_nil s : encode_utf8 s = [] -> s = [].
Proof. destruct s as [|c s]; [reflexivity|]. rewrite encode_utf8_cons. intros H. apply app_eq_nil in H. destruct H as [H _]. destruct (encode_char_ne c H). Qed.

(** The bytes of a scalar value are decoded to it. *)
Lemma from_utf8_char c r : is_scalar c = true ->
  from_utf8 (encode_utf8_char c ++ r) = (let '(cs, e) := from_utf8 r in (c :: cs, e)).
Proof.
  intros Hs. unfold is_scalar in Hs. unfold encode_utf8_char.
  destruct (N.ltb_spec c 128) as [H1|H1].
  { cbn [app from_utf8]. rewrite (proj2 (N.ltb_lt c 128) H1). reflexivity. }
  destruct (N.ltb_spec c 2048) as [H2|H2].
  { cbn [app from_utf8].
    replace (192 + c / 64 <? 128) with false by lia.
    replace ((194 <=? 192 + c / 64) && (192 + c / 64 <=? 223)) with true by lia.
    unfold cont. replace ((128 <=? 128 + c mod 64) && (128 + c mod 64 <=? 191)) with true by lia.
    replace ((192 + c / 64 - 192) * 64 + (128 + c mod 64 - 128)) with c by lia. reflexivity. }
  destruct (N.ltb_spec c 65536) as [H3|H3].
  { cbn [app from_utf8].
    replace (224 + c / 4096 <? 128) with false by lia.
    replace ((194 <=? 224 + c / 4096) && (224 + c / 4096 <=? 223)) with false by lia.
    replace ((224 <=? 224 + c / 4096) && (224 + c / 4096 <=? 239)) with true by lia.
    assert (Hm : 0 <= (c / 64) mod 64 < 64) by lia. assert (Hm2 : c = c / 4096 * 4096 + (c / 64) mod 64 * 64 + c mod 64) by lia.
    set (q := c / 4096) in *. set (m := (c / 64) mod 64) in *. set (n := c mod 64) in *. assert (n < 64) by (unfold n; lia). assert (q < 16) by (unfold q; lia).
    replace (second3 (224 + q) (128 + m)) with true.
    2:{ unfold second3, cont. destruct (N.eqb_spec (224 + q) 224); [lia|]. destruct (N.eqb_spec (224 + q) 237); lia. }
    unfold cont. replace ((128 <=? 128 + n) && (128 + n <=? 191)) with true by lia.
    replace ((224 + q - 224) * 4096 + (128 + m - 128) * 64 + (128 + n - 128)) with c by lia. reflexivity. }
  { cbn [app from_utf8].
    replace (240 + c / 262144 <? 128) with false by lia.
    replace ((194 <=? 240 + c / 262144) && (240 + c / 262144 <=? 223)) with false by lia.
    replace ((224 <=? 240 + c / 262144) && (240 + c / 262144 <=? 239)) with false by lia.
    replace ((240 <=? 240 + c / 262144) && (240 + c / 262144 <=? 244)) with true by lia.
    assert (Hm2 : c = c / 262144 * 262144 + (c / 4096) mod 64 * 4096 + (c / 64) mod 64 * 64 + c mod 64) by lia.
    set (q := c / 262144) in *. set (l := (c / 4096) mod 64) in *. set (m := (c / 64) mod 64) in *. set (n := c mod 64) in *.
    assert (n < 64) by (unfold n; lia). assert (m < 64) by (unfold m; lia). assert (l < 64) by (unfold l; lia). assert (q < 5) by (unfold q; lia).
    clearbody q l m n.
    replace (second4 (240 + q) (128 + l)) with true.
    2:{ unfold second4, cont. destruct (N.eqb_spec (240 + q) 240); [lia|]. destruct (N.eqb_spec (240 + q) 244); lia. }
    unfold cont. replace ((128 <=? 128 + m) && (128 + m <=? 191)) with true by lia.
    replace ((128 <=? 128 + n) && (128 + n <=? 191)) with true by lia.
    replace ((240 + q - 240) * 262144 + (128 + l - 128) * 4096 + (128 + m - 128) * 64 + (128 + n - 128)) with c by lia. reflexivity. }
Qed.
Lemma from_utf8_encode s r : Forall (fun c => is_scalar c = true) s ->
  from_utf8 (encode_utf8 s ++ r) = (let '(cs, e) := from_utf8 r in (s ++ cs, e)).
Proof.
  induction s as [|c s IH]; intros H; [cbn; destruct (from_utf8 r); reflexivity|]. apply Forall_cons_iff in H. destruct H as [Hc H].
  rewrite encode_utf8_cons, <- app_assoc, from_utf8_char by exact Hc. rewrite (IH H). destruct (from_utf8 r). reflexivity.
Qed.

Definition urest (e : utf8_end) : list byte := match e with UEnd => [] | UIncomplete r | UInvalid r => r end.
(** Conversely what is decoded is a scalar value and re-encodes to the bytes read; what stops the
    decoding is not the encoding of a scalar value. *)
Definition not_char (l : list byte) : Prop := forall c r, is_scalar c = true -> l <> encode_utf8_char c ++ r.
Lemma dec2 b1 b2 : (194 <=? b1) && (b1 <=? 223) = true -> cont b2 = true ->
  let c := (b1 - 192) * 64 + (b2 - 128) in is_scalar c = true /\ encode_utf8_char c = [b1; b2].
Proof.
  unfold cont. intros H1 H2. cbn zeta. split; [unfold is_scalar; lia|]. unfold encode_utf8_char.
  set (c := (b1 - 192) * 64 + (b2 - 128)). assert (128 <= c < 2048) by (unfold c; lia).
  replace (c <? 128) with false by lia. replace (c <? 2048) with true by lia.
  assert (c / 64 = b1 - 192 /\ c mod 64 = b2 - 128) as [-> ->] by (unfold c; lia). repeat f_equal; lia.
Qed.
Lemma dec3 b1 b2 b3 : (224 <=? b1) && (b1 <=? 239) = true -> second3 b1 b2 = true -> cont b3 = true ->
  let c := (b1 - 224) * 4096 + (b2 - 128) * 64 + (b3 - 128) in is_scalar c = true /\ encode_utf8_char c = [b1; b2; b3].
Proof.
  unfold cont, second3. intros H1 H2 H3. cbn zeta. set (c := (b1 - 224) * 4096 + (b2 - 128) * 64 + (b3 - 128)).
  assert (Hb2 : 128 <= b2 <= 191 /\ (b1 = 224 -> 160 <= b2) /\ (b1 = 237 -> b2 <= 159)).
  { destruct (N.eqb_spec b1 224); [lia|]. destruct (N.eqb_spec b1 237); unfold cont in *; lia. } clear H2.
  assert (Hc : 2048 <= c < 65536 /\ (c < 55296 \/ 57344 <= c)) by (unfold c; lia).
  split; [unfold is_scalar; lia|]. unfold encode_utf8_char.
  replace (c <? 128) with false by lia. replace (c <? 2048) with false by lia. replace (c <? 65536) with true by lia.
  assert (E1 : c / 4096 = b1 - 224) by (unfold c; lia). assert (E2 : c mod 64 = b3 - 128) by (unfold c; lia).
  assert (E3 : c / 64 = (b1 - 224) * 64 + (b2 - 128)) by (unfold c; lia).
  rewrite E1, E2, E3. assert (((b1 - 224) * 64 + (b2 - 128)) mod 64 = b2 - 128) as -> by lia. repeat f_equal; lia.
Qed.
Lemma dec4 b1 b2 b3 b4 : (240 <=? b1) && (b1 <=? 244) = true -> second4 b1 b2 = true -> cont b3 = true -> cont b4 = true ->
  let c := (b1 - 240) * 262144 + (b2 - 128) * 4096 + (b3 - 128) * 64 + (b4 - 128) in is_scalar c = true /\ encode_utf8_char c = [b1; b2; b3; b4].
Proof.
  unfold cont, second4. intros H1 H2 H3 H4. cbn zeta. set (c := (b1 - 240) * 262144 + (b2 - 128) * 4096 + (b3 - 128) * 64 + (b4 - 128)).
  assert (Hb2 : 128 <= b2 <= 191 /\ (b1 = 240 -> 144 <= b2) /\ (b1 = 244 -> b2 <= 143)).
  { destruct (N.eqb_spec b1 240); [lia|]. destruct (N.eqb_spec b1 244); unfold cont in *; lia. } clear H2.
  assert (Hc : 65536 <= c < 1114112) by (unfold c; lia).
  split; [unfold is_scalar; lia|]. unfold encode_utf8_char.
  replace (c <? 128) with false by lia. replace (c <? 2048) with false by lia. replace (c <? 65536) with false by lia.
  assert (E1 : c / 262144 = b1 - 240) by (unfold c; lia). assert (E2 : c mod 64 = b4 - 128) by (unfold c; lia).
  assert (E3 : c / 64 = (b1 - 240) * 4096 + (b2 - 128) * 64 + (b3 - 128)) by (unfold c; lia).
  assert (E4 : c / 4096 = (b1 - 240) * 64 + (b2 - 128)) by (unfold c; lia).
  rewrite E1, E2, E3, E4. assert (((b1 - 240) * 64 + (b2 - 128)) mod 64 = b2 - 128) as -> by lia.
  assert (((b1 - 240) * 4096 + (b2 - 128) * 64 + (b3 - 128)) mod 64 = b3 - 128) as -> by lia. repeat f_equal; lia.
Qed.
Lemma from_utf8_sound_n n : forall l cs e, (length l <= n)%nat -> from_utf8 l = (cs, e) ->
  l = encode_utf8 cs ++ urest e /\ Forall (fun c => is_scalar c = true) cs.
Proof.
  induction n as [|n IH]; intros l cs e Hl.
  { destruct l; [|cbn in Hl; lia]. intros [= <- <-]. auto. }
  destruct l as [|b1 r1]; [intros [= <- <-]; auto|]. cbn [from_utf8]. cbn [length] in Hl.
  assert (K : forall r cs0 e0 c, (length r <= n)%nat -> from_utf8 r = (cs0, e0) -> is_scalar c = true ->
    encode_utf8_char c ++ r = encode_utf8 (c :: cs0) ++ urest e0 /\ Forall (fun c => is_scalar c = true) (c :: cs0)).
  { intros r cs0 e0 c Hr Hf Hc. destruct (IH _ _ _ Hr Hf) as [E1 E2]. split; [|constructor; assumption].
    rewrite encode_utf8_cons, <- app_assoc, <- E1. reflexivity. }
  destruct (N.ltb_spec b1 128) as [H1|H1].
  { destruct (from_utf8 r1) as [cs' e'] eqn:E. intros [= <- <-].
    assert (Hb : encode_utf8_char b1 = [b1]) by (unfold encode_utf8_char; rewrite (proj2 (N.ltb_lt _ _) H1); reflexivity).
    change (b1 :: r1) with ([b1] ++ r1). rewrite <- Hb. apply K; [lia|exact E|unfold is_scalar; lia]. }
  destruct ((194 <=? b1) && (b1 <=? 223)) eqn:H2.
  { destruct r1 as [|b2 r2]; [intros [= <- <-]; auto|]. destruct (cont b2) eqn:Hc; [|intros [= <- <-]; auto].
    destruct (from_utf8 r2) as [cs' e'] eqn:E. intros [= <- <-]. destruct (dec2 b1 b2 H2 Hc) as [D1 D2].
    assert (Hlen : (length r2 <= n)%nat) by (cbn in Hl; lia). pose proof (K _ _ _ _ Hlen E D1) as K1. rewrite D2 in K1. exact K1. }
  destruct ((224 <=? b1) && (b1 <=? 239)) eqn:H3.
  { destruct r1 as [|b2 r2]; [intros [= <- <-]; auto|]. destruct (second3 b1 b2) eqn:Hc; [|intros [= <- <-]; auto].
    destruct r2 as [|b3 r3]; [intros [= <- <-]; auto|]. destruct (cont b3) eqn:Hc3; [|intros [= <- <-]; auto].
    destruct (from_utf8 r3) as [cs' e'] eqn:E. intros [= <- <-]. destruct (dec3 b1 b2 b3 H3 Hc Hc3) as [D1 D2].
    assert (Hlen : (length r3 <= n)%nat) by (cbn in Hl; lia). pose proof (K _ _ _ _ Hlen E D1) as K1. rewrite D2 in K1. exact K1. }
  destruct ((240 <=? b1) && (b1 <=? 244)) eqn:H4; [|intros [= <- <-]; auto].
  destruct r1 as [|b2 r2]; [intros [= <- <-]; auto|]. destruct (second4 b1 b2) eqn:Hc; [|intros [= <- <-]; auto].
  destruct r2 as [|b3 r3]; [intros [= <- <-]; auto|]. destruct (cont b3) eqn:Hc3; [|intros [= <- <-]; auto].
  destruct r3 as [|b4 r4]; [intros [= <- <-]; auto|]. destruct (cont b4) eqn:Hc4; [|intros [= <- <-]; auto].
  destruct (from_utf8 r4) as [cs' e'] eqn:E. intros [= <- <-]. destruct (dec4 b1 b2 b3 b4 H4 Hc Hc3 Hc4) as [D1 D2].
  assert (Hlen : (length r4 <= n)%nat) by (cbn in Hl; lia). pose proof (K _ _ _ _ Hlen E D1) as K1. rewrite D2 in K1. exact K1.
Qed.
Lemma from_utf8_sound l cs e : from_utf8 l = (cs, e) -> l = encode_utf8 cs ++ urest e /\ Forall (fun c => is_scalar c = true) cs.
Proof. apply (from_utf8_sound_n (length l)). reflexivity. Qed.

(** What is left does not start with a character. *)
Lemma from_utf8_rest l cs e : from_utf8 l = (cs, e) -> match e with UEnd => True | UIncomplete r | UInvalid r => from_utf8 r = ([], e) end.
Proof.
  intros H. destruct (from_utf8_sound _ _ _ H) as [E F]. rewrite E in H. rewrite from_utf8_encode in H by exact F.
  destruct (from_utf8 (urest e)) as [cs2 e2] eqn:E2. injection H as H1 ->.
  assert (cs2 = []) as -> by (eapply app_inv_head; rewrite app_nil_r; exact H1).
  destruct e; auto.
Qed.
Lemma stuck_not_char r e : from_utf8 r = ([], e) -> not_char r.
Proof. intros H c r' Hc ->. rewrite from_utf8_char in H by exact Hc. destruct (from_utf8 r'); discriminate. Qed.

(** The encoding is uniquely decodable. *)
Lemma encode_inj_prefix a b r : Forall (fun c => is_scalar c = true) a -> Forall (fun c => is_scalar c = true) b ->
  encode_utf8 a = encode_utf8 b ++ r -> exists d, a = b ++ d /\ r = encode_utf8 d.
Proof.
  intros Ha Hb H. pose proof (from_utf8_encode a [] Ha) as E1. rewrite app_nil_r in E1. cbn in E1. rewrite app_nil_r in E1.
  rewrite H, from_utf8_encode in E1 by exact Hb. destruct (from_utf8 r) as [d e] eqn:E2. injection E1 as E1 ->.
  exists d. split; [auto|]. apply from_utf8_sound in E2. destruct E2 as [E2 _]. cbn in E2. rewrite app_nil_r in E2. exact E2.
Qed.
Lemma encode_inj a b : Forall (fun c => is_scalar c = true) a -> Forall (fun c => is_scalar c = true) b ->
  encode_utf8 a = encode_utf8 b -> a = b.
Proof.
  intros Ha Hb H. destruct (encode_inj_prefix a b [] Ha Hb) as (d & -> & Hd); [rewrite app_nil_r; exact H|].
  symmetry in Hd. apply encode_nil in Hd. subst d. apply app_nil_r.
Qed.
