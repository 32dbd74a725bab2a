(** ParserFacts.v -- the parser: invariant of its state stack, and what one call does, as long as
    no call has failed. *)
From Coq Require Import ZifyBool ZifyNat ZifyN.
From Verif Require Import Base Utf Chars State Reader Scanner Parser Api Wp ReaderFacts Spec_Tokens ScanFacts TokFacts FetchFacts FetchWp FetchLoop FlowFacts Spec_Scanner SessionFacts Spec_Events EventFacts.

(** ** The scanner as the parser uses it *)
(** [st]: the state the scanner started in; [l]: the tokens it has delivered since. *)
Definition scanned (st : sst) (l : list token) (s : sst) : Prop :=
  calls scanner_next (length l) st = (map (fun t => Ok (Some t)) l, s).
(** The parser may have made it look one token further. *)
Definition ahead (s1 s : sst) : Prop :=
  s = s1 \/ token_available s1 = false /\ fetch_more_tokens s1 = (Ok tt, s).
(** [lo] is not after the next token. *)
Definition lob (lo : mark) (del : list token) (s : sst) : Prop :=
  lo = mark0 \/ (token_available s = true /\ exists t r, tokens s = t :: r /\ mark_le lo (t_start t))
  \/ exists d t, del = d ++ [t] /\ mark_le lo (t_end t).

Record Sc (st s0 : sst) (del : list token) (lo : mark) (ts : list token) (s : sst) : Prop := {
  sc_inv : SInv token_wf (del ++ ts) s;
  sc_sep : stream_end_produced s = false;
  sc_prog : prog (- Z.of_nat (length ts)) s0 s;
  sc_scan : exists s1, scanned st (del ++ ts) s1 /\ stream_end_produced s1 = false /\ ahead s1 s;
  sc_lo : ts = [] -> lob lo del s;
  sc_ord : ordered lo ts (pos s) }.
Record At st s0 del lo ts (t : token) (s : sst) : Prop := {
  at_sc : Sc st s0 del lo ts s;
  at_av : token_available s = true;
  at_tok : exists r, tokens s = t :: r;
  at_ord : ordered lo (ts ++ [t]) (pos s) }.

Lemma calls_app {A} (m : M sst A) a b s :
  calls m (a + b) s = let '(l1, s1) := calls m a s in let '(l2, s2) := calls m b s1 in (l1 ++ l2, s2).
Proof.
  revert s. induction a as [|a IH]; intros s; cbn [calls Nat.add].
  - destruct (calls m b s). reflexivity.
  - destruct (m s) as [r s1]. rewrite IH. destruct (calls m a s1) as [l1 s2]. destruct (calls m b s2). reflexivity.
Qed.
Lemma scanned_snoc st l s t s' : scanned st l s -> scanner_next s = (Ok (Some t), s') -> scanned st (l ++ [t]) s'.
Proof.
  unfold scanned. intros H1 H2. rewrite app_length, calls_app, H1. cbn [calls length]. rewrite H2, map_app. reflexivity.
Qed.
Lemma ordered_snoc lo l t hi : ordered lo l (t_start t) -> mark_le (t_start t) (t_end t) -> mark_le (t_end t) hi -> ordered lo (l ++ [t]) hi.
Proof. intros H1 H2 H3. eapply ordered_app; [exact H1|]. cbn [ordered]. split; [apply mark_le_refl|auto]. Qed.
Lemma ordered_last l : forall lo t hi hi', ordered lo (l ++ [t]) hi -> mark_le (t_end t) hi' -> ordered lo (l ++ [t]) hi'.
Proof.
  induction l as [|x l IH]; intros lo t hi hi'; cbn [app ordered]; [tauto|]. intros (H1 & H2 & H3) H. split; [exact H1|]. split; [exact H2|]. eapply IH; eassumption.
Qed.

Lemma Wwf : Wok token_wf. Proof. intros d H. exact H. Qed.

(** Facts about the front token. *)
Lemma front_facts W del s t r : SInv W del s -> tokens s = t :: r ->
  mark_le (t_start t) (t_end t) /\ mark_le (t_end t) (pos s) /\ (forall d u, del = d ++ [u] -> mark_le (t_end u) (t_start t)).
Proof.
  intros I Ht. pose proof (si_ord _ _ _ I) as Ho. unfold all in Ho. rewrite Ht in Ho.
  destruct (ordered_in _ _ _ t Ho) as [H1 H2]; [apply in_or_app; right; left; reflexivity|].
  split; [exact H1|]. split; [exact H2|]. intros d u ->. rewrite <- app_assoc in Ho. apply (ordered_pair _ d u [] t r _ Ho).
Qed.

(** What an error of the parser satisfies. *)
Record perr (s0 : sst) (e : error) (p : pst) : Prop := {
  pe_marks : Forall (fun m => mark_le m (pos (sc p))) (error_marks e);
  pe_idx : utf16 (enc (sc p)) = false -> m_index (pos (sc p)) <= m_index (pos s0) + blen s0;
  pe_enc : enc s0 <> EncAny -> enc (sc p) = enc s0;
  pe_kind : match e with EComposer _ _ _ _ | EEmitter _ => False | _ => True end }.
Definition PW (s0 : sst) {A} (m : M pst A) (Q : A -> pst -> Prop) (p : pst) : Prop :=
  wp m Q (perr s0) (fpanic s0) p.

Lemma set_sc_id p : set_sc (sc p) p = p.
Proof. destruct p. reflexivity. Qed.

Lemma ferr_perr W del s0 e s' a b c d f : ferr W del s0 e s' -> perr s0 e (Mk_pst s' a b c d f).
Proof.
  intros []. constructor; cbn [sc]; auto.
  - unfold err_in in fe_in. destruct e; cbn [error_marks]; try contradiction; repeat (apply Forall_cons; [apply fe_in|]); apply Forall_nil.
  - unfold err_in in fe_in. destruct e; auto.
Qed.

Section rules.
  Variables (st s0 : sst) (del : list token) (lo : mark).
  Notation ScS := (Sc st s0 del lo). Notation AtS := (At st s0 del lo).

  Lemma peek_rp ts s a b c d f (Q : token -> pst -> Prop) : ScS ts s -> (forall t s', AtS ts t s' -> prog 0 s s' -> Q t (Mk_pst s' a b c d f)) ->
    PW s0 ppeek Q (Mk_pst s a b c d f).
  Proof.
    intros H K. destruct H as [I Hse P (s1 & Hs1 & Hse1 & Hah) Hlo Ho]. unfold PW, ppeek, on_sc, wp. cbn [sc].
    pose proof (peek_f token_wf (del ++ ts) s Wwf I Hse) as F. unfold FW, wp in F.
    destruct (peek s) as [[t|e|pn|] s'] eqn:E; unfold set_sc; cbn [states state marks tag_directives aliases].
    - destruct F as (I' & Ha' & Hse' & P' & r & Ht). apply K; [|eapply prog_weaken; [exact P'|lia]].
      assert (Hah' : ahead s1 s').
      { unfold peek, bind, get in E. destruct (token_available s) eqn:Ea.
        - unfold ret in E. rewrite Ea in E. cbn [negb] in E. destruct (tokens s); [discriminate|]. injection E as _ <-. exact Hah.
        - destruct Hah as [->|[H1 H2]].
          + destruct (fetch_more_tokens s1) as [[[]|e|pn|] s2] eqn:Ef; try discriminate. right. split; [exact Ea|].
            destruct (negb (token_available s2)); [discriminate|]. destruct (tokens s2); [discriminate|]. injection E as _ <-. exact Ef.
          + exfalso. unfold fetch_more_tokens, bind, modify in H2. destruct (loopM _ _ _ s1) as [[]]; try discriminate.
            injection H2 as <-. discriminate. }
      assert (Hlo' : ts = [] -> lob lo del s').
      { intros ->. destruct (Hlo eq_refl) as [->|[(Ha & t0 & r0 & Ht0 & Hle)|H]]; [left; reflexivity| |right; right; exact H].
        right. left. unfold peek, bind, get in E. rewrite Ha in E. unfold ret in E. rewrite Ha in E. cbn [negb] in E. rewrite Ht0 in E. injection E as <- <-. eauto. }
      destruct (front_facts _ _ _ _ _ I' Ht) as (F1 & F2 & F3).
      assert (Hpr : prog (- Z.of_nat (length ts)) s0 s').
      { eapply prog_weaken; [eapply prog_trans; [exact P|exact P']|lia]. }
      constructor; [constructor; eauto| |eauto|].
      + eapply ordered_hi; [exact Ho|apply P'].
      + exact Ha'.
      + destruct ts as [|x ts' _] using rev_ind.
        * cbn [app ordered]. split; [|auto]. rewrite app_nil_r in F3. destruct (Hlo' eq_refl) as [->|[(_ & t0 & r0 & Ht0 & Hle)|(d0 & u & -> & Hle)]].
          { unfold mark_le, mark0. cbn. lia. }
          { rewrite Ht in Ht0. injection Ht0 as <- <-. exact Hle. }
          { eapply mark_le_trans; [exact Hle|]. eapply F3. reflexivity. }
        * apply ordered_snoc; auto. eapply ordered_last; [exact Ho|]. eapply F3. rewrite app_assoc. reflexivity.
    - apply (ferr_perr token_wf (del ++ ts)). eapply ferr_prog; eassumption.
    - eapply fpanic_prog; eassumption.
    - exact F.
  Qed.
  Lemma peek_r ts s a b c d f (Q : token -> pst -> Prop) : ScS ts s -> (forall t s', AtS ts t s' -> Q t (Mk_pst s' a b c d f)) ->
    PW s0 ppeek Q (Mk_pst s a b c d f).
  Proof. intros H K. eapply peek_rp; eauto. Qed.
  Lemma peek_at ts t s a b c d f (Q : token -> pst -> Prop) E P : AtS ts t s -> Q t (Mk_pst s a b c d f) -> wp ppeek Q E P (Mk_pst s a b c d f).
  Proof.
    intros [_ Ha (r & Ht) _] K. unfold ppeek, on_sc, wp. cbn [sc]. unfold peek, bind, get. rewrite Ha. unfold ret. rewrite Ha. cbn [negb].
    rewrite Ht. unfold set_sc. exact K.
  Qed.
  Lemma skip_pop ts t s r : AtS ts t s -> tokens s = t :: r -> is_stream_end t = false -> ScS (ts ++ [t]) (popped t r s).
  Proof.
    intros [[I Hse P (s1 & Hs1 & Hse1 & Hah) Hlo Ho] Ha _ Ho2] Ht Hnot.
    destruct (skip_ok _ _ _ _ _ I Ha Hse Ht) as [_ [I' P']]. constructor.
    - rewrite app_assoc. exact I'.
    - exact Hnot.
    - eapply prog_weaken; [eapply prog_trans; [exact P|exact P']|]. rewrite app_length. cbn [length]. lia.
    - exists (popped t r s). split; [|split; [exact Hnot|left; reflexivity]]. rewrite app_assoc. eapply scanned_snoc; [exact Hs1|].
      unfold scanner_next, bind, get. rewrite Hse1. unfold scan, bind, get. rewrite Hse1.
      destruct Hah as [<-|[H1 H2]].
      + rewrite Ha. unfold ret. rewrite Ht. rewrite Hnot. unfold popped. rewrite Hnot.
        f_equal. unfold set_stream_end_produced, set_tokens_parsed, set_token_available, set_tokens. cbn. rewrite Hse. reflexivity.
      + rewrite H1, H2, Ht, Hnot. unfold ret. unfold popped. rewrite Hnot.
        f_equal. unfold set_stream_end_produced, set_tokens_parsed, set_token_available, set_tokens. cbn. rewrite Hse. reflexivity.
    - intros H. destruct ts; discriminate.
    - exact Ho2.
  Qed.
  Lemma skip_rp ts t s a b c d f (Q : unit -> pst -> Prop) E P : AtS ts t s -> is_stream_end t = false ->
    (forall s', ScS (ts ++ [t]) s' -> prog (-1) s s' -> Q tt (Mk_pst s' a b c d f)) -> wp pskip Q E P (Mk_pst s a b c d f).
  Proof.
    intros H Hn K. pose proof (at_tok _ _ _ _ _ _ _ H) as (r & Ht). pose proof (skip_pop _ _ _ _ H Ht Hn) as H'.
    destruct H as [[I Hse _ _ _ _] Ha _ _]. destruct (skip_ok _ _ _ _ _ I Ha Hse Ht) as [E' [_ P']].
    unfold pskip, on_sc, wp. cbn [sc]. rewrite E'. unfold set_sc. apply K; assumption.
  Qed.
  Lemma skip_r ts t s a b c d f (Q : unit -> pst -> Prop) E P : AtS ts t s -> is_stream_end t = false ->
    (forall s', ScS (ts ++ [t]) s' -> Q tt (Mk_pst s' a b c d f)) -> wp pskip Q E P (Mk_pst s a b c d f).
  Proof.
    intros H Hn K. pose proof (at_tok _ _ _ _ _ _ _ H) as (r & Ht). pose proof (skip_pop _ _ _ _ H Ht Hn) as H'.
    destruct H as [[I Hse _ _ _ _] Ha _ _]. destruct (skip_ok _ _ _ _ _ I Ha Hse Ht) as [E' _].
    unfold pskip, on_sc, wp. cbn [sc]. rewrite E'. unfold set_sc. apply K, H'.
  Qed.
End rules.

(** ** The state stack *)
Definition frs (x : pstate) : option (list frame) :=
  match x with
  | PBlockSequenceEntry | PIndentlessSequenceEntry | PFlowSequenceEntry => Some [FSeq]
  | PBlockMappingKey | PFlowMappingKey => Some [FKey]
  | PBlockMappingValue | PFlowMappingValue | PFlowMappingEmptyValue => Some [FVal]
  | PFlowSequenceEntryMappingKey | PFlowSequenceEntryMappingEnd => Some [FKey; FSeq]
  | PFlowSequenceEntryMappingValue => Some [FVal; FSeq]
  | _ => None
  end.
(** What is open once the node being parsed is complete. *)
Fixpoint stack (l : list pstate) : option (list frame) :=
  match l with
  | [] => None
  | PDocumentEnd :: r => match r with [] => Some [FDone] | _ => None end
  | x :: r => match frs x, stack r with Some f, Some fs => Some (f ++ fs) | _, _ => None end
  end.
Definition gof (x : pstate) (r : list pstate) (ds : list tag_directive) : option gstate :=
  match x with
  | PStreamStart => match r with [] => Some GStart | _ => None end
  | PImplicitDocumentStart | PDocumentStart => match r with [] => Some GDocs | _ => None end
  | PEnd => match r with [] => Some GEnd | _ => None end
  | PDocumentContent | PBlockNode => match r with [PDocumentEnd] => Some (GDoc ds [FRoot]) | _ => None end
  | PBlockSequenceFirstEntry | PFlowSequenceFirstEntry => option_map (fun fs => GDoc ds (FSeq :: fs)) (stack r)
  | PBlockMappingFirstKey | PFlowMappingFirstKey => option_map (fun fs => GDoc ds (FKey :: fs)) (stack r)
  | PBlockNodeOrIndentlessSequence | PFlowNode => None
  | _ => option_map (GDoc ds) (stack (x :: r))
  end.
Definition mk (x : pstate) : nat :=
  match x with
  | PBlockSequenceEntry | PBlockMappingKey | PBlockMappingValue | PFlowSequenceEntry
  | PFlowSequenceEntryMappingKey | PFlowSequenceEntryMappingValue | PFlowSequenceEntryMappingEnd
  | PFlowMappingKey | PFlowMappingValue | PFlowMappingEmptyValue => 1
  | _ => 0
  end.
Fixpoint nmarks (l : list pstate) : nat := match l with [] => 0 | x :: r => mk x + nmarks r end.
(** Events that need no token. *)
Definition weight (x : pstate) : nat :=
  match x with
  | PImplicitDocumentStart | PFlowSequenceEntryMappingKey => 3
  | PFlowSequenceEntryMappingValue => 2
  | PDocumentEnd | PDocumentContent | PBlockNode | PIndentlessSequenceEntry | PBlockMappingValue
  | PFlowSequenceEntryMappingEnd | PFlowMappingValue | PFlowMappingEmptyValue => 1
  | _ => 0
  end.
Fixpoint rank (l : list pstate) : nat := match l with [] => 0 | x :: r => weight x + rank r end.
Definition first_tok (x : pstate) : option token_data :=
  match x with
  | PBlockSequenceFirstEntry => Some TBlockSequenceStart
  | PFlowSequenceFirstEntry => Some TFlowSequenceStart
  | PBlockMappingFirstKey => Some TBlockMappingStart
  | PFlowMappingFirstKey => Some TFlowMappingStart
  | _ => None
  end.
Definition is_end (x : pstate) : bool := match x with PEnd => true | _ => false end.
Definition ds_of (g : gstate) : list tag_directive := match g with GDoc ds _ => ds | _ => [] end.
Definition tdok (g : gstate) (tds : list tag_directive) : Prop :=
  match g with
  | GDoc ds _ => forall h, find_handle h tds = find (handle_is h) (ds ++ default_tag_directives)
  | _ => tds = []
  end.
Lemma stack_gof y r fs ds : stack (y :: r) = Some fs -> gof y r ds = Some (GDoc ds fs) /\ is_end y = false /\ first_tok y = None.
Proof.
  intros H. destruct y; cbn [stack frs] in H; try discriminate; try (destruct r; discriminate); cbn [gof is_end first_tok];
    try (cbn [stack frs] in *; rewrite ?H; repeat split; fail);
    try (destruct (stack r); [|discriminate]; discriminate).
Qed.

Definition first_ok (x : pstate) (s : sst) : Prop :=
  match first_tok x with
  | Some d => token_available s = true /\ exists t r, tokens s = t :: r /\ t_data t = d
  | None => True
  end.
Record PI (st : sst) (del : list token) (lo : mark) (g : gstate) (p : pst) : Prop := {
  pi_inv : SInv token_wf del (sc p);
  pi_scan : exists s1, scanned st del s1 /\ stream_end_produced s1 = is_end (state p) /\ ahead s1 (sc p);
  pi_sep : stream_end_produced (sc p) = is_end (state p);
  pi_lo : lob lo del (sc p);
  pi_g : gof (state p) (states p) (ds_of g) = Some g;
  pi_marks : length (marks p) = nmarks (state p :: states p);
  pi_mle : Forall (fun m => mark_le m (pos (sc p))) (marks p);
  pi_first : first_ok (state p) (sc p);
  pi_td : tdok g (tag_directives p) }.

Definition dirs_ok (d : event_data) : Prop :=
  match d with
  | EvDocumentStart vd tds _ =>
      (vd = None \/ vd = Some (Mk_vd 1 1) \/ vd = Some (Mk_vd 1 2)) /\ NoDup (map td_handle tds)
  | _ => True
  end.
(** What a successful call does: it consumes the tokens [ts] and returns [e]. *)
Record PPost (st s0 : sst) (del : list token) (lo : mark) (g : gstate) (rk : nat) (ts : list token) (g' : gstate)
  (e : event) (p' : pst) : Prop := {
  pp_ex : explains (ds_of g) ts (e_data e);
  pp_dirs : dirs_ok (e_data e);
  pp_g : gstep g (e_data e) = Some g';
  pp_pi : PI st (del ++ ts) (e_start e) g' p';
  pp_prog : prog (- Z.of_nat (length ts)) s0 (sc p');
  pp_rank : (rank (state p' :: states p') + 1 <= rk + 4 * length ts)%nat;
  pp_lo : mark_le lo (e_start e);
  pp_marks : mark_le (e_start e) (e_end e);
  pp_pos : mark_le (e_end e) (pos (sc p')) }.
Definition PQ st s0 del lo g rk (e : event) (p' : pst) : Prop := exists ts g', PPost st s0 del lo g rk ts g' e p'.

(** Tokens that carry nothing an event reports. *)
Definition silent (t : token) : bool :=
  match t_data t with
  | TAnchor _ | TAlias _ | TTag _ _ | TScalar _ _ | TVersionDirective _ _ | TTagDirective _ _ | TDocumentStart | TStreamStart _ => false
  | _ => true
  end.
Definition is_stream_start_ev (d : event_data) : bool := match d with EvStreamStart _ => true | _ => false end.
Lemma explains_silent ds ts l d : forallb silent ts = true -> is_stream_start_ev d = false -> explains ds l d -> explains ds (ts ++ l) d.
Proof.
  intros H Hd E. induction ts as [|t ts IH]; [exact E|]. cbn [forallb] in H. apply andb_true_iff in H. destruct H as [H1 H2].
  specialize (IH H2). cbn [app]. destruct IH.
  assert (F : forall A (f : token -> list A), f t = [] -> flat_map f (t :: ts ++ l) = flat_map f (ts ++ l)).
  { intros A f Hf. cbn [flat_map]. rewrite Hf. reflexivity. }
  unfold silent in H1. constructor.
  - unfold anchors. rewrite F; [exact ex_anchor|]. destruct (t_data t); try reflexivity; discriminate.
  - unfold aliases_in. rewrite F; [exact ex_alias|]. destruct (t_data t); try reflexivity; discriminate.
  - unfold tags. rewrite F; [exact ex_tag|]. destruct (t_data t); try reflexivity; discriminate.
  - unfold scalars. rewrite F; [exact ex_scalar|]. destruct (t_data t); try reflexivity; discriminate.
  - unfold versions. rewrite F; [exact ex_version|]. destruct (t_data t); try reflexivity; discriminate.
  - unfold tag_dirs. rewrite F; [exact ex_dirs|]. destruct (t_data t); try reflexivity; discriminate.
  - unfold doc_starts. cbn [filter]. destruct (t_data t); try exact ex_start; discriminate.
  - destruct d; try (constructor; [destruct (t_data t); try exact Logic.I; discriminate|exact ex_stream]). discriminate.
Qed.
Definition plain_ev (d : event_data) : bool :=
  match d with
  | EvScalar None None [] true false SPlain | EvSequenceEnd | EvMappingEnd | EvMappingStart None None true _
  | EvDocumentEnd _ | EvStreamEnd => true
  | _ => false
  end.
Lemma explains_plain ds ts d : forallb silent ts = true -> plain_ev d = true -> explains ds ts d.
Proof.
  intros H Hd. rewrite <- (app_nil_r ts). apply explains_silent; [exact H|destruct d; auto; discriminate|].
  destruct d as [| | | | |a t v pi qi sty| | |a t i sty|]; try discriminate Hd.
  - constructor; cbn; auto.
  - constructor; cbn; auto.
  - destruct a, t; try discriminate. destruct v; [|discriminate]. destruct pi; [|discriminate]. destruct qi; [discriminate|].
    destruct sty; try discriminate. constructor; cbn; auto. right. repeat split; auto.
  - constructor; cbn; auto.
  - destruct a, t; try discriminate. destruct i; [|discriminate]. constructor; cbn; auto. split; [reflexivity|tauto].
  - constructor; cbn; auto.
Qed.

Lemma ordered_after lo a x b hi : ordered lo (a ++ x :: b) hi -> mark_le lo (t_start x).
Proof.
  revert lo. induction a as [|y a IH]; intros lo; cbn [app ordered]; [tauto|]. intros (H1 & H2 & H3).
  eapply mark_le_trans; [exact H1|]. eapply mark_le_trans; [exact H2|apply IH, H3].
Qed.

Section leaf.
  Variables (st s0 : sst) (del : list token) (lo : mark) (g : gstate) (rk : nat).
  Lemma leaf_sc ts s e sts x ms tds al g' :
    Sc st s0 del lo ts s -> explains (ds_of g) ts (e_data e) -> dirs_ok (e_data e) -> gstep g (e_data e) = Some g' ->
    gof x sts (ds_of g') = Some g' -> is_end x = false -> length ms = nmarks (x :: sts) ->
    Forall (fun m => mark_le m (pos s)) ms -> first_ok x s -> tdok g' tds ->
    (rank (x :: sts) + 1 <= rk + 4 * length ts)%nat ->
    mark_le lo (e_start e) -> mark_le (e_start e) (e_end e) -> mark_le (e_end e) (pos s) ->
    (token_available s = true /\ (exists t r, tokens s = t :: r /\ mark_le (e_start e) (t_start t)) \/
     exists l u, ts = l ++ [u] /\ mark_le (e_start e) (t_end u)) ->
    PQ st s0 del lo g rk e (Mk_pst s sts x ms tds al).
  Proof.
    intros [I Hse P (s1 & Hs1 & Hse1 & Hah) Hlo Ho] Hex Hd Hg Hgo Hx Hm Hml Hf Htd Hr L1 L2 L3 L4. exists ts, g'. constructor; auto.
    constructor; cbn [sc state states marks tag_directives]; auto.
    - exists s1. rewrite Hx. auto.
    - congruence.
    - destruct L4 as [[H1 (t & r & H2 & H3)]|(l & u & -> & H)]; [right; left; eauto|]. right. right. exists (del ++ l), u. rewrite <- app_assoc. auto.
  Qed.
End leaf.
