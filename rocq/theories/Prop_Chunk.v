(** Prop_Chunk.v -- C02: tokens, events and documents depend on the text of the input only, not on
    the way the reader delivers it.

    Two inputs deliver the same text [tx] when [input_text] says so of both: whatever the chunks, the
    interrupted reads, a byte order mark in one of them, and whether UTF-8 was requested or detected.
    For an empty text the streams must also agree on whether an encoding was found: STREAM-START
    says so. *)
From Coq Require Import Lia ZifyBool ZifyNat ZifyN Bool.
From Verif Require Import Base Utf Chars State Reader Scanner Parser EState Emitter Document Api Spec_Tokens Spec_Scanner Spec_Reader Spec_Parser Utf8Facts Wp ReaderFacts ReadFacts Prop_Reader Prop_Scanner Prop_Parser Prop_Document Chunk ChunkScan ChunkParse.
Open Scope N_scope.

Definition same_text (e : encoding) (i : source) (e' : encoding) (i' : source) : Prop :=
  exists tx, input_text e i tx /\ input_text e' i' tx /\ (tx <> [] \/ e = e' /\ all_bytes i = all_bytes i').

(** Any list of operations, one after the other. *)
Section lists.
Context {T A : Type}.
Fixpoint runl (ms : list (M T A)) (s : T) : list (res A) * T :=
  match ms with
  | [] => ([], s)
  | m :: ms' => match m s with (r, s1) => match runl ms' s1 with (l, s2) => (r :: l, s2) end end
  end.
Lemma runl_snoc ms m : forall s, runl (ms ++ [m]) s = let (l, s1) := runl ms s in let (r, s2) := m s1 in (l ++ [r], s2).
Proof.
  induction ms as [|a ms IH]; intros s; cbn [runl app]; [destruct (m s); reflexivity|]. destruct (a s) as [r s1]. rewrite IH.
  destruct (runl ms s1) as [l s2]. destruct (m s2). reflexivity.
Qed.
Lemma runl_calls m n : forall s, calls m n s = runl (repeat m n) s.
Proof. induction n as [|n IH]; intros s; [reflexivity|]. cbn [calls repeat runl]. destruct (m s). rewrite IH. reflexivity. Qed.
Variable rp : T -> rpart.
Variable put : rpart -> T -> T.
Variable E : encoding.
Variable ok : res A -> Prop.
Variables (s : T) (x : rpart) (tx : str).
Hypothesis Js : J E tx (rp s).
Hypothesis Jx : J E tx x.
Variable dom : list (M T A) -> Prop.
Hypothesis dom_pre : forall ms m, dom (ms ++ [m]) -> dom ms /\ GSim rp put E m.
Hypothesis R1 : forall ms m os p, dom (ms ++ [m]) -> runl ms s = (os, p) -> Forall ok os -> fst (m p) <> Fuel.
Hypothesis R2 : forall ms m os p, dom (ms ++ [m]) -> runl ms (put x s) = (os, p) -> Forall ok os -> fst (m p) <> Fuel.
Lemma runl_same ms : dom ms -> Forall ok (fst (runl ms s)) ->
  exists tx' x', J E tx' (rp (snd (runl ms s))) /\ J E tx' x' /\ runl ms (put x s) = (fst (runl ms s), put x' (snd (runl ms s))).
Proof.
  induction ms as [|m ms IH] using rev_ind; intros D Ho; [exists tx, x; auto|].
  destruct (dom_pre ms m D) as [D' G].
  rewrite (runl_snoc ms m s) in *. rewrite (runl_snoc ms m (put x s)). destruct (runl ms s) as [l1 s1] eqn:E1. cbn [fst snd] in IH.
  destruct (m s1) as [r1 s2] eqn:Em. cbn [fst snd] in Ho. apply Forall_app in Ho. destruct Ho as [Ho1 Ho2].
  destruct (IH D' Ho1) as (tx1 & x1 & K1 & K2 & Er). rewrite Er.
  pose proof (G tx1 s1 x1 K1 K2) as H. rewrite Em in H. destruct (m (put x1 s1)) as [r2 t2] eqn:Em2.
  destruct H as [H|[H|(H & tx2 & x2 & A1 & A2 & A3)]].
  - exfalso. apply (R1 ms m l1 s1 D E1 Ho1). rewrite Em. exact H.
  - exfalso. apply (R2 ms m l1 (put x1 s1) D Er Ho1). rewrite Em2. exact H.
  - exists tx2, x2. subst r2 t2. auto.
Qed.
Lemma runl_next ms m : dom (ms ++ [m]) -> Forall ok (fst (runl ms s)) -> fst (runl (ms ++ [m]) (put x s)) = fst (runl (ms ++ [m]) s).
Proof.
  intros D Ho. destruct (dom_pre ms m D) as [D' G]. destruct (runl_same ms D' Ho) as (tx1 & x1 & K1 & K2 & Er). rewrite !runl_snoc, Er.
  destruct (runl ms s) as [l1 s1] eqn:E1. cbn [fst snd] in *. pose proof (G tx1 s1 x1 K1 K2) as H.
  destruct (m s1) as [r1 s2] eqn:Em, (m (put x1 s1)) as [r2 t2] eqn:Em2. cbn [fst].
  destruct H as [H|[H|(H & _)]].
  - exfalso. apply (R1 ms m l1 s1 D E1 Ho). rewrite Em. exact H.
  - exfalso. apply (R2 ms m l1 (put x1 s1) D Er Ho). rewrite Em2. exact H.
  - rewrite H. reflexivity.
Qed.
End lists.

Lemma same_text_J dbg e i e' i' : same_text e i e' i' -> exists E tx, J E tx (rof (scanner_start dbg e i)) /\ J E tx (rof (scanner_start dbg e' i')).
Proof.
  intros (tx & H1 & H2 & Hd). exists (eff (rof (scanner_start dbg e i))), tx.
  assert (X : forall e i, input_text e i tx -> eff (rof (scanner_start dbg e i)) = match e with EncAny => match all_bytes i with [] => EncAny | _ => Utf8 end | e => e end /\ (tx <> [] -> all_bytes i <> []) /\ (e = Utf8 \/ e = EncAny)).
  { clear. intros e i (_ & _ & _ & l & Hl & He). split; [rewrite eff_eq; destruct e; reflexivity|].
    assert (Q : tx <> [] -> l <> []) by (intros Hn ->; inversion Hl as [|c lc ? ? Hc]; subst; [contradiction|]; destruct lc as [|b lc]; [inversion Hc|discriminate]).
    destruct e; try contradiction; (split; [|auto]).
    - intros Hn. destruct He as [_ [-> |[-> _]]]; [discriminate|auto].
    - intros Hn. rewrite He. auto. }
  split; (split; [apply (proj1 (text_of tx _)); apply input_text_start; assumption|]); [reflexivity|].
  destruct (X _ _ H1) as (-> & N1 & Q1), (X _ _ H2) as (-> & N2 & Q2). destruct Hd as [Hd|[-> ->]]; [|reflexivity].
  specialize (N1 Hd). specialize (N2 Hd). destruct (all_bytes i) as [|b l]; [contradiction|]. destruct (all_bytes i') as [|b' l']; [contradiction|].
  destruct Q1 as [-> | ->], Q2 as [-> | ->]; reflexivity.
Qed.

(** ** Tokens *)
(** Any session of the scanner, up to and including the first call that panics; errors do not end it. *)
Lemma session_runl cs : forall s, session cs s = runl (map invoke cs) s.
Proof. induction cs as [|c cs IH]; intros s; [reflexivity|]. cbn [session map runl]. destruct (invoke c s). rewrite IH. reflexivity. Qed.
Lemma S_G E {A} (m : M sst A) q : Sim E 0 m q -> GSim rof wr E m.
Proof.
  intros H tx s x J1 J2. specialize (H tx s x J1 J2 (F_zero _ _ _) (F_zero _ _ _)). destruct (m s), (m (wr x s)).
  destruct H as [H|[H|(H & tx' & x' & A1 & A2 & A3 & _)]]; eauto 10.
Qed.
Theorem C02_tokens : forall dbg e i e' i' cs c os s, same_text e i e' i' ->
  session cs (scanner_start dbg e i) = (os, s) -> Forall returned os ->
  fst (session (cs ++ [c]) (scanner_start dbg e' i')) = fst (session (cs ++ [c]) (scanner_start dbg e i)).
Proof.
  intros dbg e i e' i' cs c os s Hst Hs Ho. destruct (same_text_J dbg e i e' i' Hst) as (E & tx & J1 & J2).
  rewrite !session_runl, map_app. change (scanner_start dbg e' i') with (wr (rof (scanner_start dbg e' i')) (scanner_start dbg e i)).
  assert (Inv : forall a, GSim rof wr E (invoke a)).
  { intros a. destruct a; [|apply (S_G E scanner_next (fun _ => 0%nat)), S_scanner_next].
    apply G_bind; [apply (S_G E scan (fun _ => 0%nat)), S_scan|]. intros ?. apply G_ret. }
  assert (NF : forall e1 i1 ms m os1 p, (exists l, ms ++ [m] = map invoke l) -> runl ms (scanner_start dbg e1 i1) = (os1, p) -> Forall returned os1 -> fst (m p) <> Fuel).
  { intros e1 i1 ms m os1 p [l Hl] H Hr HF. destruct l as [|c1 l _] using rev_ind; [destruct ms; discriminate|]. rewrite map_app in Hl. apply app_inj_tail in Hl. destruct Hl as [-> ->].
    rewrite <- session_runl in H. pose proof (C04_every_call_returns dbg e1 i1 l os1 p c1 H Hr) as K. rewrite HF in K. exact K. }
  eapply (runl_next rof wr E returned _ _ tx J1 J2 (fun ms => exists l, ms = map invoke l)).
  - intros ms m [l Hl]. destruct l as [|c1 l _] using rev_ind; [destruct ms; discriminate|]. rewrite map_app in Hl. apply app_inj_tail in Hl. destruct Hl as [-> ->]. eauto.
  - intros ms m os1 p. apply NF.
  - intros ms m os1 p. apply (NF e' i').
  - exists (cs ++ [c]). rewrite map_app. reflexivity.
  - rewrite <- session_runl, Hs. exact Ho.
Qed.

(** ** Events *)
(** Up to and including the first call that does not succeed. *)
Lemma repeat_snoc {A} (m : A) n : repeat m n ++ [m] = repeat m (S n).
Proof. induction n as [|n IH]; [reflexivity|]. cbn [repeat app]. rewrite IH. reflexivity. Qed.
Lemma repeat_of_snoc {A} (m y : A) ms n : ms ++ [y] = repeat m n -> exists k, n = S k /\ ms = repeat m k /\ y = m.
Proof.
  intros H. destruct n as [|n]; [destruct ms; discriminate|]. rewrite <- repeat_snoc in H. apply app_inj_tail in H. destruct H as [-> ->]. eauto.
Qed.
Theorem C02_events : forall dbg e i e' i' n os p, same_text e i e' i' ->
  calls parser_next n (parser_start dbg e i) = (os, p) -> Forall succeeded os ->
  fst (calls parser_next (S n) (parser_start dbg e' i')) = fst (calls parser_next (S n) (parser_start dbg e i)).
Proof.
  intros dbg e i e' i' n os p Hst Hs Ho. destruct (same_text_J dbg e i e' i' Hst) as (E & tx & J1 & J2).
  rewrite !runl_calls, <- repeat_snoc. change (parser_start dbg e' i') with (pwr (rof (scanner_start dbg e' i')) (parser_start dbg e i)).
  assert (NF : forall e1 i1 ms m os1 p, (exists k, ms ++ [m] = repeat parser_next k) -> runl ms (parser_start dbg e1 i1) = (os1, p) -> Forall succeeded os1 -> fst (m p) <> Fuel).
  { intros e1 i1 ms m os1 q [k Hk] H Hr. apply repeat_of_snoc in Hk. destruct Hk as (k' & -> & -> & ->). rewrite <- runl_calls in H.
    exact (C12_every_call_returns dbg e1 i1 k' os1 q H Hr). }
  eapply (runl_next prof pwr E succeeded (parser_start dbg e i) _ tx J1 J2 (fun ms => exists k, ms = repeat parser_next k)).
  - intros ms m [k Hk]. apply repeat_of_snoc in Hk. destruct Hk as (k' & -> & -> & ->). split; [eauto|apply P_next].
  - intros ms m os1 q. apply NF.
  - intros ms m os1 q. apply (NF e' i').
  - exists (S n). apply repeat_snoc.
  - rewrite <- runl_calls, Hs. exact Ho.
Qed.

(** ** Documents *)
Lemma succeeded_ok {A} (os : list (res A)) : Forall succeeded os -> exists ds, os = map Ok ds.
Proof.
  induction 1 as [|o os H _ [ds ->]]; [exists []; reflexivity|]. destruct o as [d| | |]; try contradiction. exists (d :: ds). reflexivity.
Qed.
Theorem C02_documents : forall dbg e i e' i' n os p, same_text e i e' i' ->
  calls load n (parser_start dbg e i) = (os, p) -> Forall succeeded os ->
  fst (calls load (S n) (parser_start dbg e' i')) = fst (calls load (S n) (parser_start dbg e i)).
Proof.
  intros dbg e i e' i' n os p Hst Hs Ho. destruct (same_text_J dbg e i e' i' Hst) as (E & tx & J1 & J2).
  rewrite !runl_calls, <- repeat_snoc. change (parser_start dbg e' i') with (pwr (rof (scanner_start dbg e' i')) (parser_start dbg e i)).
  assert (NF : forall e1 i1 ms m os1 p, (exists k, ms ++ [m] = repeat load k) -> runl ms (parser_start dbg e1 i1) = (os1, p) -> Forall succeeded os1 -> fst (m p) <> Fuel).
  { intros e1 i1 ms m os1 q [k Hk] H Hr. apply repeat_of_snoc in Hk. destruct Hk as (k' & -> & -> & ->). rewrite <- runl_calls in H.
    destruct (succeeded_ok _ Hr) as [ds ->]. exact (C18_load_returns dbg e1 i1 k' ds q H). }
  eapply (runl_next prof pwr E succeeded (parser_start dbg e i) _ tx J1 J2 (fun ms => exists k, ms = repeat load k)).
  - intros ms m [k Hk]. apply repeat_of_snoc in Hk. destruct Hk as (k' & -> & -> & ->). split; [eauto|apply P_load].
  - intros ms m os1 q. apply NF.
  - intros ms m os1 q. apply (NF e' i').
  - exists (S n). apply repeat_snoc.
  - rewrite <- runl_calls, Hs. exact Ho.
Qed.
Print Assumptions C02_tokens.
Print Assumptions C02_events.
Print Assumptions C02_documents.

(** The two inputs of the demonstration of C01, one with a byte order mark, chunks in the middle of
    characters and interruptions, the other in one piece with UTF-8 requested. *)
Definition demo_source : source := Mk_source [239] [SIntr; SData [187; 191; 97; 58; 32; 195]; SData [169; 226]; SIntr; SData [130]; SData [172; 240; 159; 152]; SIntr; SIntr; SData [128; 10]].
Example same_text_demo : same_text EncAny demo_source Utf8 (slice_source (encode_utf8 demo_text)).
Proof.
  exists demo_text. split; [exact input_text_demo|]. split; [|left; discriminate].
  split; [repeat constructor|]. split; [unfold demo_text; repeat apply Forall_cons; try apply Forall_nil; unfold yaml_char; lia|].
  split; [vm_compute; reflexivity|]. exists (encode_utf8 demo_text). split; [apply utf8_text_encode; split; [repeat constructor|reflexivity]|]. reflexivity.
Qed.
Example same_tokens_demo :
  fst (calls parser_next 9 (parser_start true EncAny demo_source)) = fst (calls parser_next 9 (parser_start true Utf8 (slice_source (encode_utf8 demo_text))))
  /\ length (events_of (fst (calls parser_next 9 (parser_start true EncAny demo_source)))) = 8%nat.
Proof. split; vm_compute; reflexivity. Qed.
