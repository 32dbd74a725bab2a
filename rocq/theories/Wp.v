(** Wp.v -- weakest-precondition rules for the monad of Base.v.  [wp m Q E P s]: running [m] from
    [s] does not run out of fuel; a normal result satisfies [Q], an error [E], a panic [P]. *)
From Verif Require Import Base.

Definition wp {S A} (m : M S A) (Q : A -> S -> Prop) (E : error -> S -> Prop)
           (P : panic -> Prop) (s : S) : Prop :=
  match m s with
  | (Ok a, s') => Q a s'
  | (Err e, s') => E e s'
  | (Panic p, _) => P p
  | (Fuel, _) => False
  end.

Section rules.
  Context {S A B : Type}.
  Implicit Types (s : S) (E : error -> S -> Prop) (P : panic -> Prop).

  Lemma wp_conseq (m : M S A) (Q Q' : A -> S -> Prop) E E' (P P' : panic -> Prop) s :
    wp m Q E P s -> (forall a s', Q a s' -> Q' a s') -> (forall e s', E e s' -> E' e s') ->
    (forall p, P p -> P' p) -> wp m Q' E' P' s.
  Proof. unfold wp. destruct (m s) as [[a|e|p|] s']; intros; auto. Qed.

  Lemma wp_bind (m : M S A) (k : A -> M S B) Q E P s :
    wp m (fun a s' => wp (k a) Q E P s') E P s -> wp (bind m k) Q E P s.
  Proof. unfold wp, bind. destruct (m s) as [[a|e|p|] s']; intros; auto. Qed.

  Lemma wp_bind_inv (m : M S A) (k : A -> M S B) Q E P s :
    wp (bind m k) Q E P s -> wp m (fun a s' => wp (k a) Q E P s') E P s.
  Proof. unfold wp, bind. destruct (m s) as [[a|e|p|] s']; intros; auto. Qed.

  (** Bind with a separately proved specification of the first part. *)
  Lemma wp_seq (m : M S A) (k : A -> M S B) Q1 E1 (P1 : panic -> Prop) Q E P s :
    wp m Q1 E1 P1 s -> (forall a s', Q1 a s' -> wp (k a) Q E P s') ->
    (forall e s', E1 e s' -> E e s') -> (forall p, P1 p -> P p) -> wp (bind m k) Q E P s.
  Proof. intros H1 H2 H3 H4. apply wp_bind. eapply wp_conseq; eauto. Qed.

  Lemma wp_ret (a : A) (Q : A -> S -> Prop) E P s : Q a s -> wp (ret a) Q E P s.
  Proof. exact (fun H => H). Qed.
  Lemma wp_fail e (Q : A -> S -> Prop) E P s : E e s -> wp (fail e) Q E P s.
  Proof. exact (fun H => H). Qed.
  Lemma wp_panics p (Q : A -> S -> Prop) E P s : P p -> wp (panics p) Q E P s.
  Proof. exact (fun H => H). Qed.
  Lemma wp_get (Q : S -> S -> Prop) E P s : Q s s -> wp (@get S) Q E P s.
  Proof. exact (fun H => H). Qed.
  Lemma wp_gets (f : S -> A) (Q : A -> S -> Prop) E P s : Q (f s) s -> wp (gets f) Q E P s.
  Proof. exact (fun H => H). Qed.
  Lemma wp_modify f (Q : unit -> S -> Prop) E P s : Q tt (f s) -> wp (@modify S f) Q E P s.
  Proof. exact (fun H => H). Qed.

End rules.

(** Loops: an invariant [I] and a measure [f] that decreases whenever the loop goes round. *)
Lemma wp_loopM {S A B} (I : A -> S -> Prop) (f : S -> nat) (body : A -> M S (A + B)) Q E P :
  (forall a s, I a s ->
     wp (body a) (fun r s' => match r with
                              | inl a' => I a' s' /\ (f s' < f s)%nat
                              | inr b => Q b s'
                              end) E P s) ->
  forall n a s, I a s -> (f s < n)%nat -> wp (loopM n body a) Q E P s.
Proof.
  intros Hb. induction n as [|n IH]; intros a s HI Hn; [lia|].
  cbn [loopM]. apply wp_bind. eapply wp_conseq; [apply Hb, HI| |auto|auto].
  intros [a'|b] s' H; cbn beta iota in *.
  - apply IH; [tauto|lia].
  - exact H.
Qed.

(** Partial-correctness view used when only a successful outcome matters. *)
Lemma wp_ok {S A} (m : M S A) Q E P s a s' : wp m Q E P s -> m s = (Ok a, s') -> Q a s'.
Proof. unfold wp. intros H Heq. rewrite Heq in H. exact H. Qed.
Lemma wp_err {S A} (m : M S A) Q E P s e s' : wp m Q E P s -> m s = (Err e, s') -> E e s'.
Proof. unfold wp. intros H Heq. rewrite Heq in H. exact H. Qed.
Lemma wp_panic {S A} (m : M S A) Q E P s p s' : wp m Q E P s -> m s = (Panic p, s') -> P p.
Proof. unfold wp. intros H Heq. rewrite Heq in H. exact H. Qed.
Lemma wp_fuel {S A} (m : M S A) Q E P s s' : wp m Q E P s -> m s <> (Fuel, s').
Proof. unfold wp. intros H Heq. rewrite Heq in H. exact H. Qed.
Lemma wp_and {S A} (m : M S A) Q1 E1 P1 Q2 E2 P2 s :
  wp m Q1 E1 P1 s -> wp m Q2 E2 P2 s ->
  wp m (fun a s' => Q1 a s' /\ Q2 a s') (fun e s' => E1 e s' /\ E2 e s') (fun p => P1 p /\ P2 p) s.
Proof. unfold wp. destruct (m s) as [[a|e|p|] s']; auto. Qed.

(** One syntax-directed step. Calls of named functions are left to the caller. *)
Ltac wp_step :=
  match goal with
  | |- wp (bind _ _) _ _ _ _ => apply wp_bind
  | |- wp (ret _) _ _ _ _ => apply wp_ret
  | |- wp (fail _) _ _ _ _ => apply wp_fail
  | |- wp (panics _) _ _ _ _ => apply wp_panics
  | |- wp get _ _ _ _ => apply wp_get
  | |- wp (gets _) _ _ _ _ => apply wp_gets
  | |- wp (modify _) _ _ _ _ => apply wp_modify
  | |- wp (when ?b _) _ _ _ _ => unfold when
  | |- wp (if ?b then _ else _) _ _ _ _ => let H := fresh "Hif" in destruct b eqn:H
  | |- wp (let '(_, _) := ?x in _) _ _ _ _ => destruct x
  | |- wp (match ?x with _ => _ end) _ _ _ _ => let H := fresh "Hm" in destruct x eqn:H
  end.
