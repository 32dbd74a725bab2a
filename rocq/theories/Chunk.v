(** Chunk.v -- the scanner does not depend on the way its input is cut in chunks: the proof rules. *)
From Coq Require Import Lia ZifyBool ZifyNat ZifyN Bool.
From Verif Require Import Base Utf Chars State Reader Scanner Parser Spec_Tokens Spec_Scanner Utf8Facts Wp ReaderFacts ReadFacts.
Open Scope N_scope.

(** ** The part of the state that belongs to the reader *)
Record rpart := Mk_r { r_src : option source; r_eof : bool; r_buf : list char; r_enc : encoding; r_off : N }.
Definition rof (s : sst) : rpart := Mk_r (src s) (eof s) (buffer s) (enc s) (offset s).
Definition wr (x : rpart) (s : sst) : sst :=
  set_src (r_src x) (set_eof (r_eof x) (set_buffer (r_buf x) (set_enc (r_enc x) (set_offset (r_off x) s)))).
Lemma wr_rof s : wr (rof s) s = s. Proof. destruct s; reflexivity. Qed.
Lemma rof_wr x s : rof (wr x s) = x. Proof. destruct x; reflexivity. Qed.
Lemma wr_wr x y s : wr x (wr y s) = wr x s. Proof. reflexivity. Qed.
Definition s0 : sst := scanner_new true.
(** The encoding that is, or will be, found. *)
Definition eff (r : rpart) : encoding :=
  match r_enc r with
  | EncAny => match sb (wr r s0) with [] => EncAny | _ => Utf8 end
  | e => e
  end.
(** The reader will deliver exactly [tx]. *)
Definition J (E : encoding) (tx : str) (r : rpart) : Prop := text [] tx (wr r s0) /\ eff r = E.
(** [k] characters are available, or all there are. *)
Definition F (E : encoding) (k : nat) (tx : str) (r : rpart) : Prop :=
  ((k <= length (r_buf r))%nat \/ r_buf r = tx) /\ ((1 <= k)%nat -> r_enc r = E).
Lemma text_of tx s : text [] tx s <-> text [] tx (wr (rof s) s0).
Proof. split; intros []; constructor; auto. Qed.
Lemma F_less E k k' tx r : (k' <= k)%nat -> F E k tx r -> F E k' tx r.
Proof. intros H [[A|A] B]; split; try (intros; apply B; lia); [left; lia|right; exact A]. Qed.
Lemma F_zero E tx r : F E 0 tx r. Proof. split; [left; lia|lia]. Qed.

(** ** [cache] *)
Lemma determine_none tx s : text [] tx s -> enc s = EncAny ->
  wp determine_encoding (fun o s' => (o = None <-> sb s = []) /\ (o = None -> sb s' = sb s)) (fun _ _ => True) (fun _ => True) s.
Proof.
  intros T He. pose proof (tx_clean _ _ _ T) as Hc. unfold cleans in Hc. destruct (src s) as [i|] eqn:Ei; [|contradiction].
  assert (Hb : sb s = all_bytes i) by (unfold sb; rewrite Ei; reflexivity). rewrite Hb.
  unfold determine_encoding. apply wp_bind. eapply wp_io; [exact Ei| |auto].
  intros l i1 Hf. apply fill_buf_bytes in Hf. destruct Hf as (Hcur & Hab & Hcl). destruct (Hcl Hc) as [Hc1 Hnil].
  destruct l as [|b l]; [apply wp_ret; split; [split; auto|intros _; exact Hab]|].
  assert (Hne : all_bytes i <> []) by (rewrite <- Hab, all_bytes_eq, Hcur; discriminate).
  assert (K : forall (e : encoding) s', wp (ret (Some e)) (fun o s' => (o = None <-> all_bytes i = []) /\ (o = None -> sb s' = all_bytes i)) (fun _ _ => True) (fun _ => True) s').
  { intros e s'. apply wp_ret. split; [split; [discriminate|congruence]|discriminate]. }
  destruct (b =? 239).
  - apply wp_bind. eapply wp_io; [reflexivity| |auto]. intros bm i2 _. destruct (bytes_eqb _ _); [apply K|apply wp_fail; auto].
  - destruct ((b =? 255) || (b =? 254)); [|apply K]. apply wp_bind. eapply wp_io; [reflexivity| |auto]. intros bm i2 _.
    destruct (bytes_eqb _ _); [apply K|]. destruct (bytes_eqb _ _); [apply K|apply wp_fail; auto].
Qed.
Lemma eff_eq s : eff (rof s) = match enc s with EncAny => match sb s with [] => EncAny | _ => Utf8 end | e => e end.
Proof. reflexivity. Qed.
Lemma cache_enc n tx s : text [] tx s ->
  wp (cache n) (fun _ s' => eff (rof s') = eff (rof s) /\ ((1 <= n)%nat -> enc s' = eff (rof s))) (fun _ _ => True) (fun _ => True) s.
Proof.
  intros T. rewrite eff_eq. unfold cache. apply wp_bind, wp_get.
  assert (Hu : enc s = Utf8 \/ enc s = EncAny /\ buffer s = []) by (destruct (tx_bytes _ _ _ T) as [(H & _)|(H1 & _ & H2 & _)]; auto).
  destruct (Nat.leb_spec n (length (buffer s))) as [Hl|Hl].
  { apply wp_ret. rewrite eff_eq. split; [reflexivity|]. intros Hn. destruct Hu as [H|[_ H]]; [rewrite H; reflexivity|rewrite H in Hl; cbn in Hl; lia]. }
  unfold update_buffer. apply wp_bind, wp_get.
  pose proof (cleans_src _ (tx_clean _ _ _ T)) as Hs. destruct (src s) as [i|] eqn:Ei; [|congruence].
  destruct (Nat.leb_spec n (length (buffer s))) as [Hl'|_]; [lia|].
  assert (Fin : forall s1, text [] tx s1 -> enc s1 = Utf8 ->
    wp (early <- fill_loop n ;; if early : bool then ret tt else off <- gets offset ;; if 9223372036854775807 <=? off then fail (EReader "input is too long" off (-1)) else ret tt)
       (fun _ s' => enc s' = Utf8) (fun _ _ => True) (fun _ => True) s1).
  { intros s1 T1 E1. eapply wp_seq; [apply (fill_loop_text n [] tx s1 T1 E1)| |auto|auto]. cbn beta. intros b s2 (_ & _ & E2 & _).
    destruct b; [apply wp_ret; exact E2|]. apply wp_bind, wp_gets. destruct (_ <=? _); [apply wp_fail; auto|apply wp_ret; exact E2]. }
  destruct Hu as [Hu|[Hu Hb]].
  - rewrite Hu. cbn [encoding_eqb]. apply wp_bind, wp_ret. eapply wp_conseq; [apply (Fin s T Hu)| |auto|auto]. cbn beta. intros _ s' H. rewrite eff_eq, H. auto.
  - rewrite Hu. cbn [encoding_eqb]. apply wp_bind. eapply wp_seq; [apply wp_and; [apply (determine_text _ _ _ T Hu)|apply (determine_none _ _ T Hu)]| |auto|auto].
    cbn beta. intros [e|] s1 [(R1 & Hb1 & He1 & Ho) [Hn Hk]].
    + destruct Ho as [-> T1]. apply wp_bind, wp_modify, wp_ret. eapply wp_conseq; [apply (Fin _ T1 eq_refl)| |auto|auto]. cbn beta. intros _ s' H. rewrite eff_eq, H.
      destruct (sb s); [exfalso; destruct Hn as [_ Hn]; discriminate (Hn eq_refl)|]. auto.
    + destruct Ho as (-> & _ & _). apply wp_bind, wp_modify, wp_ret, wp_ret. rewrite eff_eq. change (enc (set_eof true s1)) with (enc s1). change (sb (set_eof true s1)) with (sb s1).
      rewrite He1, (Hk eq_refl). destruct Hn as [Hn _]. rewrite (Hn eq_refl). auto.
Qed.
Lemma rd_wr s s' : rd s s' -> s' = wr (rof s') s.
Proof.
  intros H. pose proof (rd_frame _ _ H) as H1. pose proof (rd_ska _ _ H) as H2. pose proof (rd_pos _ _ H) as H3. clear H.
  destruct s, s'. unfold frame in H1. cbn in *. injection H1. intros. subst. reflexivity.
Qed.
Lemma cache_wr s x s' : rd (wr x s) s' -> s' = wr (rof s') s.
Proof. intros H. rewrite (rd_wr _ _ H) at 1. reflexivity. Qed.

(** ** The judgement.  [Sim k m q]: from two states that differ only in the reader's part, have the
    same text to come and [k] characters of it available, [m] gives the same result and states that
    again differ only so, with [q a] characters available if the result is [Ok a] (or runs out of fuel). *)
Definition Sim (E : encoding) {A} (k : nat) (m : M sst A) (q : A -> nat) : Prop :=
  forall tx s x, J E tx (rof s) -> J E tx x -> F E k tx (rof s) -> F E k tx x ->
  let (r1, s1) := m s in let (r2, t1) := m (wr x s) in
  r1 = Fuel \/ r2 = Fuel \/
  (r2 = r1 /\ exists tx' x', J E tx' (rof s1) /\ J E tx' x' /\ t1 = wr x' s1 /\
     (forall a, r1 = Ok a -> F E (q a) tx' (rof s1) /\ F E (q a) tx' x')).
Section rules.
Variable E : encoding.
Notation S := (Sim E).
Lemma S_weak {A} k k' (m : M sst A) q q' : S k m q -> (k <= k')%nat -> (forall a, (q' a <= q a)%nat) -> S k' m q'.
Proof.
  intros H Hk Hq tx s x J1 J2 F1 F2. specialize (H tx s x J1 J2 (F_less _ _ _ _ _ Hk F1) (F_less _ _ _ _ _ Hk F2)).
  destruct (m s) as [r1 s1], (m (wr x s)) as [r2 t1]. destruct H as [H|[H|(H & tx' & x' & A1 & A2 & A3 & A4)]]; [auto|auto|]. right. right. split; [exact H|].
  exists tx', x'. split; [exact A1|]. split; [exact A2|]. split; [exact A3|]. intros a Ha. destruct (A4 a Ha). split; eapply F_less; eauto.
Qed.
Lemma S_use {A} K k (m : M sst A) q : S K m q -> (K <= k)%nat -> S k m q.
Proof. intros H Hk. eapply S_weak; eauto. Qed.
Lemma S_pure {A} k (m : M sst A) : (forall s x, m (wr x s) = (fst (m s), wr x (snd (m s))) /\ rof (snd (m s)) = rof s) -> S k m (fun _ => k).
Proof.
  intros H tx s x J1 J2 F1 F2. destruct (H s x) as [E1 E2]. rewrite E1. destruct (m s) as [r1 s1]. cbn [fst snd] in *. right. right. split; [reflexivity|].
  exists tx, x. rewrite E2. auto.
Qed.
Lemma S_ret {A} k (a : A) q : (q a <= k)%nat -> S k (ret a) q.
Proof.
  intros H tx s x J1 J2 F1 F2. cbn. right. right. split; [reflexivity|]. exists tx, x. split; [exact J1|]. split; [exact J2|]. split; [reflexivity|].
  intros b [= <-]. split; eapply F_less; eauto.
Qed.
Lemma S_fail {A} k e q : S k (@fail sst A e) q.
Proof. intros tx s x J1 J2 F1 F2. cbn. right. right. split; [reflexivity|]. exists tx, x. split; [exact J1|]. split; [exact J2|]. split; [reflexivity|discriminate]. Qed.
Lemma S_panics {A} k e q : S k (@panics sst A e) q.
Proof. intros tx s x J1 J2 F1 F2. cbn. right. right. split; [reflexivity|]. exists tx, x. split; [exact J1|]. split; [exact J2|]. split; [reflexivity|discriminate]. Qed.
Lemma S_bind {A B} k (m : M sst A) (f : A -> M sst B) q q' : S k m q -> (forall a, S (q a) (f a) q') -> S k (bind m f) q'.
Proof.
  intros H1 H2 tx s x J1 J2 F1 F2. specialize (H1 tx s x J1 J2 F1 F2). unfold bind.
  destruct (m s) as [r1 s1], (m (wr x s)) as [r2 t1]. destruct H1 as [H|[H|(H & tx' & x' & A1 & A2 & A3 & A4)]].
  - subst r1. destruct r2 as [a|e|p|]; [destruct (f a t1)|..]; auto.
  - subst r2. destruct r1 as [a|e|p|]; [destruct (f a s1)|..]; auto.
  - subst r2 t1. destruct r1 as [a|e|p|].
    + destruct (A4 a eq_refl) as [G1 G2]. exact (H2 a tx' s1 x' A1 A2 G1 G2).
    + right. right. split; [reflexivity|]. exists tx', x'. repeat (split; [assumption||reflexivity|]). discriminate.
    + right. right. split; [reflexivity|]. exists tx', x'. repeat (split; [assumption||reflexivity|]). discriminate.
    + auto.
Qed.
(** Looking at the state: only what is the same in both may be looked at. *)
Definition same_view (k : nat) (s t : sst) : Prop := forall i, (i < k)%nat -> bget i t = bget i s.
Lemma view_F k tx s x : J E tx (rof s) -> J E tx x -> F E k tx (rof s) -> F E k tx x -> same_view k s (wr x s).
Proof.
  intros [J1 _] [J2 _] [F1 _] [F2 _] i Hi. unfold bget. change (buffer (wr x s)) with (r_buf x).
  assert (X : forall r, text [] tx (wr r s0) -> (k <= length (r_buf r))%nat \/ r_buf r = tx -> nth_error (r_buf r) i = nth_error tx i).
  { intros r T [H|H]; [|rewrite H; reflexivity]. destruct (text_buffer _ _ _ T) as [y Hy]. change (buffer (wr r s0)) with (r_buf r) in Hy. rewrite Hy. rewrite nth_error_app1 by lia. reflexivity. }
  rewrite (X x J2 F2). change (buffer s) with (r_buf (rof s)). rewrite (X (rof s) J1 F1). reflexivity.
Qed.
Lemma S_get {B} k (f : sst -> M sst B) q : (forall s x, same_view k s (wr x s) -> f (wr x s) = f s) -> (forall s, S k (f s) q) -> S k (bind get f) q.
Proof.
  intros H1 H2 tx s x J1 J2 F1 F2. unfold bind, get. rewrite (H1 s x (view_F k tx s x J1 J2 F1 F2)). exact (H2 s tx s x J1 J2 F1 F2).
Qed.
Lemma S_gets {A} k (f : sst -> A) : (forall s x, f (wr x s) = f s) -> S k (gets f) (fun _ => k).
Proof. intros H. apply S_pure. intros s x. unfold gets. cbn [fst snd]. rewrite H. auto. Qed.
Lemma S_modify k f : (forall s x, f (wr x s) = wr x (f s)) -> (forall s, rof (f s) = rof s) -> S k (modify f) (fun _ => k).
Proof. intros H1 H2. apply S_pure. intros s x. unfold modify. cbn [fst snd]. rewrite H1, H2. auto. Qed.
Lemma S_loopM {A B} k (body : A -> M sst (A + B)) q : (forall a, S k (body a) (fun r => match r with inl _ => k | inr b => q b end)) ->
  forall n1 n2 a tx s x, J E tx (rof s) -> J E tx x -> F E k tx (rof s) -> F E k tx x ->
  let (r1, s1) := loopM n1 body a s in let (r2, t1) := loopM n2 body a (wr x s) in
  r1 = Fuel \/ r2 = Fuel \/
  (r2 = r1 /\ exists tx' x', J E tx' (rof s1) /\ J E tx' x' /\ t1 = wr x' s1 /\
     (forall b, r1 = Ok b -> F E (q b) tx' (rof s1) /\ F E (q b) tx' x')).
Proof.
  intros H. induction n1 as [|n1 IH]; intros n2 a tx s x J1 J2 F1 F2.
  - cbn [loopM]. destruct (loopM n2 body a (wr x s)). auto.
  - destruct n2 as [|n2]; [cbn [loopM]; destruct (bind _ _ s); auto|]. cbn [loopM]. unfold bind. specialize (H a tx s x J1 J2 F1 F2).
    destruct (body a s) as [r1 s1], (body a (wr x s)) as [r2 t1]. destruct H as [H|[H|(H & tx' & x' & A1 & A2 & A3 & A4)]].
    + subst r1. destruct r2 as [[a'|b]|e|p|]; cbn; auto. destruct (loopM n2 body a' t1); auto.
    + subst r2. destruct r1 as [[a'|b]|e|p|]; cbn; auto. destruct (loopM n1 body a' s1); auto.
    + subst r2 t1. destruct r1 as [[a'|b]|e|p|].
      * destruct (A4 _ eq_refl) as [G1 G2]. apply (IH n2 a' tx' s1 x' A1 A2 G1 G2).
      * cbn. right. right. split; [reflexivity|]. exists tx', x'. destruct (A4 _ eq_refl) as [G1 G2]. repeat (split; [assumption||reflexivity|]). intros b' [= <-]. auto.
      * right. right. split; [reflexivity|]. exists tx', x'. repeat (split; [assumption||reflexivity|]). discriminate.
      * right. right. split; [reflexivity|]. exists tx', x'. repeat (split; [assumption||reflexivity|]). discriminate.
      * auto.
Qed.
Lemma S_loop {A B} k (body : A -> M sst (A + B)) a q : (forall a, S k (body a) (fun r => match r with inl _ => k | inr b => q b end)) -> S k (loop body a) q.
Proof. intros H tx s x J1 J2 F1 F2. unfold loop. apply (S_loopM k body q H _ _ a tx s x J1 J2 F1 F2). Qed.

(** ** The reader's own operations *)
Lemma S_cache k n : S k (cache n) (fun _ => n).
Proof.
  intros tx s x [T1 E1] [T2 E2] F1 F2.
  assert (X : forall t, text [] tx t -> eff (rof t) = E -> exists t', cache n t = (Ok tt, t') /\ J E tx (rof t') /\ F E n tx (rof t') /\ rd t t').
  { intros t T He. pose proof (wp_and _ _ _ _ _ _ _ _ (cache_text n [] tx t T) (cache_enc n tx t T)) as W. unfold wp in W.
    destruct (cache n t) as [[[]|e|p|] t']; try contradiction.
    - destruct W as [(T' & R & Fu) [K1 K2]]. exists t'. split; [reflexivity|]. split; [split; [apply (proj1 (text_of tx t') T')|congruence]|]. split; [|exact R].
      split; [destruct Fu as [Fu|[Fu _]]; auto|]. intros Hn. rewrite <- He. apply K2, Hn.
    - destruct W as [[_ [B _]] _]. destruct (B eq_refl).
    - destruct W as [[] _]. }
  destruct (X s (proj2 (text_of tx s) T1) E1) as (s1 & C1 & J1 & G1 & R1).
  assert (T2' : text [] tx (wr x s)) by (apply (proj2 (text_of tx (wr x s))); rewrite rof_wr; exact T2).
  destruct (X (wr x s) T2' ltac:(rewrite rof_wr; exact E2)) as (t1 & C2 & J2 & G2 & R2).
  rewrite C1, C2. right. right. split; [reflexivity|]. exists tx, (rof t1). split; [exact J1|]. split; [exact J2|]. split; [|auto].
  rewrite (cache_wr _ _ _ R2) at 1. rewrite (rd_wr _ _ R1) at 1. reflexivity.
Qed.
Lemma J_pop c tx r : J E (c :: tx) r -> hd_error (r_buf r) = Some c -> J E tx (Mk_r (r_src r) (r_eof r) (tl (r_buf r)) (r_enc r) (r_off r)).
Proof.
  intros [T He] Hb. destruct (r_buf r) as [|c' b] eqn:Eb; [discriminate|]. cbn in Hb. injection Hb as ->. split.
  - pose proof (text_pop [] c tx b (wr r s0) T Eb) as T'. destruct r; exact T'.
  - rewrite <- He. destruct r; reflexivity.
Qed.
Lemma F_pop k c tx r : r_buf r <> [] -> F E (Datatypes.S k) (c :: tx) r -> F E k tx (Mk_r (r_src r) (r_eof r) (tl (r_buf r)) (r_enc r) (r_off r)).
Proof.
  intros Hb [[A|A] B]; cbn [r_src r_eof r_buf r_enc r_off].
  - split; [left; cbn; destruct (r_buf r); cbn in *; [congruence|lia]|]. intros _. apply B. lia.
  - split; [right; cbn; rewrite A; reflexivity|]. intros _. apply B. lia.
Qed.
(** The two buffers when something is available. *)
Lemma heads k tx r : J E tx r -> F E (Datatypes.S k) tx r -> match tx with [] => r_buf r = [] | c :: _ => exists b, r_buf r = c :: b end.
Proof.
  intros [T _] [A _]. destruct (text_buffer _ _ _ T) as [y Hy]. change (buffer (wr r s0)) with (r_buf r) in Hy.
  destruct (r_buf r) as [|c b] eqn:Eb.
  - destruct A as [A|A]; [cbn in A; lia|]. subst tx. reflexivity.
  - subst tx. cbn. eauto.
Qed.
(** Taking a character: the same for [skip_char] and [read_char]. *)
Definition pop (r : rpart) : rpart := Mk_r (r_src r) (r_eof r) (tl (r_buf r)) (r_enc r) (r_off r).
Lemma S_take {A} k (m : M sst A) (f : char -> sst -> A) (g : char -> sst -> sst) p :
  (forall s, m s = match buffer s with [] => (Panic p, s) | c :: b => (Ok (f c s), g c (set_buffer b s)) end) ->
  (forall c s x, f c (wr x s) = f c s) -> (forall c s x, g c (wr x s) = wr x (g c s)) -> (forall c s, rof (g c s) = rof s) ->
  S (Datatypes.S k) m (fun _ => k).
Proof.
  intros Hm Hf Hg Hr tx s x J1 J2 F1 F2. pose proof (heads _ _ _ J1 F1) as H1. pose proof (heads _ _ _ J2 F2) as H2. rewrite !Hm.
  change (buffer (wr x s)) with (r_buf x). change (buffer s) with (r_buf (rof s)) in *. destruct tx as [|c tx].
  - rewrite H1, H2. right. right. split; [reflexivity|]. exists [], x. split; [exact J1|]. split; [exact J2|]. split; [reflexivity|discriminate].
  - destruct H1 as [b1 H1], H2 as [b2 H2]. rewrite H1, H2. rewrite Hf. right. right. split; [reflexivity|].
    exists tx, (pop x). assert (P1 : rof (g c (set_buffer b1 s)) = pop (rof s)) by (rewrite Hr; unfold pop; rewrite H1; reflexivity). rewrite P1.
    split; [eapply J_pop; [exact J1|rewrite H1; reflexivity]|]. split; [eapply J_pop; [exact J2|rewrite H2; reflexivity]|].
    split; [|intros _ _; split; (eapply F_pop; [congruence|eassumption])].
    change (set_buffer b2 (wr x s)) with (set_buffer b2 (wr x (set_buffer b1 s))). 
    replace (set_buffer b2 (wr x (set_buffer b1 s))) with (wr (pop x) (set_buffer b1 s)) by (unfold pop; rewrite H2; reflexivity). apply Hg.
Qed.
Lemma S_skip_char k : S (Datatypes.S k) skip_char (fun _ => k).
Proof. apply (S_take k skip_char (fun _ _ => tt) (fun c s => set_pos (advance (len_utf8 c) (pos s)) s) PSkipChar); try reflexivity. Qed.
Lemma S_read_char k str : S (Datatypes.S k) (read_char str) (fun _ => k).
Proof. apply (S_take k (read_char str) (fun c _ => str ++ [c]) (fun c s => set_pos (advance (len_utf8 c) (pos s)) s) PReadChar); try reflexivity. Qed.
(** Line breaks: one or two characters. *)
Lemma S_break {A} k (m : M sst A) (z : res A) (f2 : A) (f1 : char -> A) (f0 : A) :
  (forall s, m s = match buffer s with
     | [] => (z, s)
     | c :: b => if (c =? cCR) && chk cLF (nth_error b 0) then (Ok f2, set_pos (next_line 2 (pos s)) (set_buffer (skipn 2 (buffer s)) s))
                 else if is_break_c c then (Ok (f1 c), set_pos (next_line (len_utf8 c) (pos s)) (set_buffer b s))
                 else (Ok f0, s) end) ->
  S (Datatypes.S (Datatypes.S k)) m (fun _ => k).
Proof.
  intros Hm tx s x J1 J2 F1 F2. pose proof (heads _ _ _ J1 F1) as H1. pose proof (heads _ _ _ J2 F2) as H2. rewrite !Hm.
  change (buffer (wr x s)) with (r_buf x). change (buffer s) with (r_buf (rof s)) in *. destruct tx as [|c tx].
  - rewrite H1, H2. right. right. split; [reflexivity|]. exists [], x. split; [exact J1|]. split; [exact J2|]. split; [reflexivity|].
    intros a _. split; [eapply F_less; [|exact F1]|eapply F_less; [|exact F2]]; lia.
  - destruct H1 as [b1 H1], H2 as [b2 H2]. rewrite H1, H2.
    assert (P1 : rof (set_buffer b1 s) = pop (rof s)) by (unfold pop; rewrite H1; reflexivity).
    assert (P2 : wr (pop x) (set_buffer b1 s) = set_buffer b2 (wr x s)) by (unfold pop; rewrite H2; reflexivity).
    pose proof (J_pop c tx (rof s) J1 ltac:(rewrite H1; reflexivity)) as K1. pose proof (J_pop c tx x J2 ltac:(rewrite H2; reflexivity)) as K2.
    pose proof (F_pop (Datatypes.S k) c tx (rof s) ltac:(congruence) F1) as G1. pose proof (F_pop (Datatypes.S k) c tx x ltac:(congruence) F2) as G2.
    fold (pop (rof s)) in K1, G1. fold (pop x) in K2, G2.
    pose proof (heads _ _ _ K1 G1) as Q1. pose proof (heads _ _ _ K2 G2) as Q2.
    change (r_buf (pop (rof s))) with (tl (r_buf (rof s))) in Q1. change (r_buf (pop x)) with (tl (r_buf x)) in Q2. rewrite H1 in Q1. rewrite H2 in Q2. cbn [tl] in Q1, Q2.
    assert (N12 : nth_error b2 0 = nth_error b1 0) by (destruct tx; [rewrite Q1, Q2; reflexivity|destruct Q1 as [? ->], Q2 as [? ->]; reflexivity]).
    rewrite N12. destruct ((c =? cCR) && chk cLF (nth_error b1 0)) eqn:Ec.
    + destruct tx as [|c' tx]; [rewrite Q1 in Ec; cbn in Ec; rewrite andb_false_r in Ec; discriminate|]. destruct Q1 as [b1' ->], Q2 as [b2' ->].
      right. right. split; [reflexivity|]. exists tx, (pop (pop x)). cbn [skipn].
      assert (R1 : rof (set_pos (next_line 2 (pos s)) (set_buffer b1' s)) = pop (pop (rof s))) by (unfold pop; cbn [r_buf r_src r_eof r_enc r_off]; rewrite H1; reflexivity).
      rewrite R1. split; [eapply J_pop; [exact K1|cbn; change (buffer s) with (r_buf (rof s)); rewrite H1; reflexivity]|].
      split; [eapply J_pop; [exact K2|cbn; rewrite H2; reflexivity]|].
      split; [unfold pop; cbn [r_buf r_src r_eof r_enc r_off]; rewrite H2; reflexivity|].
      intros _ _. split; (eapply F_pop; [cbn [pop r_buf]; change (buffer s) with (r_buf (rof s)); rewrite ?H1, ?H2; discriminate|eassumption]).
    + destruct (is_break_c c) eqn:Eb.
      * right. right. split; [reflexivity|]. exists tx, (pop x).
        assert (R1 : rof (set_pos (next_line (len_utf8 c) (pos s)) (set_buffer b1 s)) = pop (rof s)) by (unfold pop; rewrite H1; reflexivity).
        rewrite R1. split; [exact K1|]. split; [exact K2|]. split; [unfold pop; rewrite H2; reflexivity|].
        intros _ _. split; eapply F_less; [|exact G1| |exact G2]; lia.
      * right. right. split; [reflexivity|]. exists (c :: tx), x. split; [exact J1|]. split; [exact J2|]. split; [reflexivity|].
        intros _ _. split; eapply F_less; [|exact F1| |exact F2]; lia.
Qed.
Lemma S_skip_line_break k : S (Datatypes.S (Datatypes.S k)) skip_line_break (fun _ => k).
Proof. apply (S_break k skip_line_break (Ok tt) tt (fun _ => tt) tt). reflexivity. Qed.
Lemma S_read_line_break k str : S (Datatypes.S (Datatypes.S k)) (read_line_break str) (fun _ => k).
Proof. apply (S_break k (read_line_break str) (Panic PReadLineBreak) (str ++ [cLF]) (fun c => str ++ [if len_utf8 c =? 3 then c else cLF]) str). reflexivity. Qed.
End rules.
