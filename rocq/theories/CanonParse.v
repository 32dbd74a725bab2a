(** CanonParse.v -- the parser on the tokens of canonical output. *)
From Coq Require Import Lia ZifyBool ZifyNat ZifyN Bool Permutation.
From Verif Require Import Base Utf Chars State Reader Scanner Parser Wp ScanFacts RoundScan EState Emitter Document Api Spec_Events EventFacts Spec_EmitNames EmitGrammar Spec_Canonical CanonLex CanonBody CanonItems CanonEmit CanonToks CanonStep CanonRun.
Open Scope N_scope.

Section parse.
Variable lf : str.
Hypothesis Hlf : lf_ok lf.
Notation Sc := (Sc lf).
(** The outcome of a call: an event, and a state. *)
Definition gives {A} (Q : A -> pst -> Prop) (r : res A * pst) : Prop := exists a p, r = (Ok a, p) /\ Q a p.
Lemma g_ret {A} (a : A) p (Q : A -> pst -> Prop) : Q a p -> gives Q (ret a p).
Proof. intros H. exists a, p. auto. Qed.
Lemma g_peek {A} d l s sts st ms tds al (k : token -> M pst A) Q : Sc s (d :: l) ->
  (forall t r s', t_data t = d -> Sc s' (d :: l) -> tokens s' = t :: r -> gives Q (k t (Mk_pst s' sts st ms tds al))) -> gives Q (bind ppeek k (Mk_pst s sts st ms tds al)).
Proof.
  intros H Hk. destruct (peek_sc lf Hlf s d l H) as (t & r & s' & E & Ed & H' & Et & _). unfold bind, ppeek, on_sc. cbn [sc]. rewrite E. apply (Hk t r s' Ed H' Et).
Qed.
Lemma g_peek0 d l s sts st ms tds al (Q : token -> pst -> Prop) : Sc s (d :: l) ->
  (forall t r s', t_data t = d -> Sc s' (d :: l) -> tokens s' = t :: r -> Q t (Mk_pst s' sts st ms tds al)) -> gives Q (ppeek (Mk_pst s sts st ms tds al)).
Proof.
  intros H Hk. destruct (peek_sc lf Hlf s d l H) as (t & r & s' & E & Ed & H' & Et & _). unfold ppeek, on_sc. cbn [sc]. rewrite E. eexists t, _. split; [reflexivity|]. apply (Hk t r s' Ed H' Et).
Qed.
Lemma g_skip {A} d l t r s sts st ms tds al (k : unit -> M pst A) Q : Sc s (d :: l) -> tokens s = t :: r -> d <> TStreamEnd ->
  (forall s', Sc s' l -> gives Q (k tt (Mk_pst s' sts st ms tds al))) -> gives Q (bind pskip k (Mk_pst s sts st ms tds al)).
Proof.
  intros H Et Hd Hk. destruct (skip_sc lf s d l H) as (s' & E & E2 & H'); [congruence|]. unfold bind, pskip, on_sc. cbn [sc]. rewrite E. apply Hk, H'.
  rewrite E2. destruct d; try reflexivity. congruence.
Qed.
Lemma g_bind {A B} (m : M pst A) (k : A -> M pst B) p Q : gives (fun a p' => gives Q (k a p')) (m p) -> gives Q (bind m k p).
Proof. intros (a & p' & E & H). unfold bind. rewrite E. exact H. Qed.
Lemma g_on {A B} (m : M sst A) a s' s sts st ms tds al (k : A -> M pst B) Q : m s = (Ok a, s') -> gives Q (k a (Mk_pst s' sts st ms tds al)) -> gives Q (bind (on_sc m) k (Mk_pst s sts st ms tds al)).
Proof. intros E H. unfold bind, on_sc. cbn [sc]. rewrite E. exact H. Qed.
Lemma g_goto {A} x s sts st ms tds al (k : unit -> M pst A) Q : gives Q (k tt (Mk_pst s sts x ms tds al)) -> gives Q (bind (goto x) k (Mk_pst s sts st ms tds al)).
Proof. auto. Qed.
Lemma g_push {A} x s sts st ms tds al (k : unit -> M pst A) Q : gives Q (k tt (Mk_pst s (x :: sts) st ms tds al)) -> gives Q (bind (push_state x) k (Mk_pst s sts st ms tds al)).
Proof. auto. Qed.
Lemma g_pop {A} x s sts st ms tds al (k : unit -> M pst A) Q : gives Q (k tt (Mk_pst s sts x ms tds al)) -> gives Q (bind pop_state k (Mk_pst s (x :: sts) st ms tds al)).
Proof. auto. Qed.

(** ** Nodes *)
Definition starts (d : token_data) : bool :=
  match d with TAnchor _ | TTag _ _ | TAlias _ | TScalar _ _ | TFlowSequenceStart | TFlowMappingStart => true | _ => false end.
Definition first_tok (d : event_data) : token_data := match d with EvMappingStart _ _ _ _ => TFlowMappingStart | _ => TFlowSequenceStart end.
Lemma node_starts tds d tk rest : node_toks tds d tk -> (opens d = true -> exists r, rest = first_tok d :: r) -> exists x l, tk ++ rest = x :: l /\ starts x = true.
Proof.
  intros H Ho. destruct H as [a|a t v pi qi sty tk Ht|a t i sty tk Ht|a t i sty tk Ht].
  - eexists _, _. split; reflexivity.
  - destruct a as [a|]; [eexists _, _; split; reflexivity|]. cbn [anchor_toks app]. inversion Ht; subst; eexists _, _; split; reflexivity.
  - destruct (Ho eq_refl) as (r & ->). destruct a as [a|]; [eexists _, _; split; reflexivity|]. cbn [anchor_toks app]. inversion Ht; subst; eexists _, _; split; reflexivity.
  - destruct (Ho eq_refl) as (r & ->). destruct a as [a|]; [eexists _, _; split; reflexivity|]. cbn [anchor_toks app]. inversion Ht; subst; eexists _, _; split; reflexivity.
Qed.
(** The tag of a node, as it is read. *)
Lemma find_own tds td : In td tds -> NoDup (map td_handle tds) -> find_handle (td_handle td) tds = Some td.
Proof.
  intros Hi Hn. unfold find_handle. induction tds as [|u tds IH]; [destruct Hi|]. cbn [find]. cbn [map] in Hn. apply NoDup_cons_iff in Hn. destruct Hn as [Hn1 Hn2].
  destruct Hi as [-> |Hi]; [replace (str_eqb (td_handle td) (td_handle td)) with true by (symmetry; apply str_eqb_eq; reflexivity); reflexivity|].
  destruct (str_eqb (td_handle u) (td_handle td)) eqn:E; [|exact (IH Hi Hn2)]. apply str_eqb_eq in E. destruct Hn1. rewrite E. apply in_map, Hi.
Qed.
Lemma g_resolve {A} t o tk m1 m2 s sts st ms tds al (k : option str -> M pst A) Q : tag_toks tds t tk -> NoDup (map td_handle tds) -> (forall td, In td tds -> valid_handle (td_handle td)) ->
  o = match tk with TTag h x :: _ => Some (h, x) | _ => None end ->
  gives Q (k t (Mk_pst s sts st ms tds al)) -> gives Q (bind (resolve_tag o m1 m2) k (Mk_pst s sts st ms tds al)).
Proof.
  intros H Hn Hh -> Hk. unfold resolve_tag. destruct H as [|t|td x Hi Hx]; [exact Hk|exact Hk|].
  unfold bind. cbn [get tag_directives]. assert (is_empty (td_handle td) = false) as -> by (destruct (Hh td Hi) as [-> |(w & -> & _)]; reflexivity).
  rewrite (find_own tds td Hi Hn). exact Hk.
Qed.
Definition no_prop (d : token_data) : bool := match d with TAnchor _ | TTag _ _ => false | _ => true end.
Lemma g_props {A} a t tk x0 rest t0 r0 d0 l0 s sts st ms tds al (k : _ -> M pst A) Q :
  tag_toks tds t tk -> no_prop x0 = true -> anchor_toks a ++ tk ++ x0 :: rest = d0 :: l0 -> Sc s (d0 :: l0) -> t_data t0 = d0 -> tokens s = t0 :: r0 ->
  (forall s' m1 m2 m3, Sc s' (x0 :: rest) -> gives Q (k (a, match tk with TTag h x :: _ => Some (h, x) | _ => None end, m1, m2, m3) (Mk_pst s' sts st ms tds al))) ->
  gives Q (bind (parse_properties t0) k (Mk_pst s sts st ms tds al)).
Proof.
  intros Ht Hx E H Ed Et Hk. apply g_bind. unfold parse_properties. rewrite Ed. rewrite <- E in H.
  assert (T : tk = [] \/ exists h y, tk = [TTag h y]) by (destruct Ht; eauto).
  destruct a as [a|]; cbn [anchor_toks app] in E, H.
  - injection E as <- E. eapply g_skip; [exact H|exact Et|discriminate|]. intros s1 H1. destruct T as [-> |(h & y & ->)]; cbn [app] in H1.
    + eapply g_peek; [exact H1|]. intros t2 r2 s2 E2 H2 Et2. rewrite E2. destruct x0; try discriminate Hx; (apply g_ret, Hk, H2).
    + eapply g_peek; [exact H1|]. intros t2 r2 s2 E2 H2 Et2. rewrite E2. eapply g_skip; [exact H2|exact Et2|discriminate|]. intros s3 H3. apply g_ret, Hk, H3.
  - destruct T as [-> |(h & y & ->)]; cbn [app] in E, H.
    + injection E as <- E. destruct x0; try discriminate Hx; (apply g_ret, Hk, H).
    + injection E as <- E. eapply g_skip; [exact H|exact Et|discriminate|]. intros s1 H1.
      eapply g_peek; [exact H1|]. intros t2 r2 s2 E2 H2 Et2. rewrite E2. destruct x0; try discriminate Hx; (apply g_ret, Hk, H2).
Qed.
Definition first_pstate (d : event_data) : pstate := match d with EvMappingStart _ _ _ _ => PFlowMappingFirstKey | _ => PFlowSequenceFirstEntry end.
Definition node_at (d : event_data) (a : pstate) (rs : list pstate) (rest : list token_data) (ms : list mark) (tds : list tag_directive) (al : list alias_data) (e : event) (p : pst) : Prop :=
  e_data e = reread_one d /\ exists s, Sc s rest /\ p = Mk_pst s (if opens d then a :: rs else rs) (if opens d then first_pstate d else a) ms tds al.
Definition tag_ne (d : event_data) : Prop := all (fun t => t <> []) (tag_in d).
Lemma told_written t qi : told_tag t qi = written t qi. Proof. destruct t; reflexivity. Qed.
Lemma bang_eq t : opt_is t (lit "!") = is_bang t. Proof. destruct t; reflexivity. Qed.
Lemma none_eq {A} (t : option A) : is_none t = match t with None => true | Some _ => false end. Proof. destruct t; reflexivity. Qed.
Lemma g_node b d tk rest a rs s st ms tds al : node_toks tds d tk -> tag_ne d -> NoDup (map td_handle tds) -> (forall td, In td tds -> valid_handle (td_handle td)) ->
  (opens d = true -> exists r, rest = first_tok d :: r) -> Sc s (tk ++ rest) -> gives (node_at d a rs rest ms tds al) (parse_node b false (Mk_pst s (a :: rs) st ms tds al)).
Proof.
  intros Hd Hne Hn Hh Ho H. unfold parse_node. destruct Hd as [an|an t v pi qi sty tk Ht|an t i sty tk Ht|an t i sty tk Ht].
  - cbn [app] in H. eapply g_peek; [exact H|]. intros t0 r0 s1 E1 H1 Et1. rewrite E1. apply g_pop. eapply g_skip; [exact H1|exact Et1|discriminate|]. intros s2 H2. apply g_ret.
    split; [reflexivity|]. exists s2. auto.
  - rewrite <- !app_assoc in H. destruct (anchor_toks an ++ tk ++ [TScalar v SDouble] ++ rest) as [|d0 l0] eqn:E0; [destruct an, tk; discriminate E0|].
    eapply g_peek; [exact H|]. intros t0 r0 s1 E1 H1 Et1.
    assert (N : match t_data t0 with TAlias _ => False | _ => True end).
    { rewrite E1. destruct an as [an|]; cbn [anchor_toks app] in E0; [injection E0 as <- _; exact I|]. destruct Ht; injection E0 as <- _; exact I. }
    assert (P : gives (node_at (EvScalar an t v pi qi sty) a rs rest ms tds al) (parse_node_content b false t0 (Mk_pst s1 (a :: rs) st ms tds al))).
    { unfold parse_node_content. eapply (g_props an _ tk (TScalar v SDouble) rest); [exact Ht|reflexivity|exact E0|exact H1|exact E1|exact Et1|]. intros s2 m1 m2 m3 H2.
      eapply g_resolve; [exact Ht|exact Hn|exact Hh|reflexivity|]. eapply g_peek; [exact H2|]. intros t3 r3 s3 E3 H3 Et3. cbv zeta. rewrite E3.
      apply g_pop. eapply g_skip; [exact H3|exact Et3|discriminate|]. intros s4 H4. apply g_ret. split; [|exists s4; auto]. cbn [e_data reread_one].
      rewrite told_written. rewrite bang_eq, none_eq. unfold no_tag. cbn [style_eqb andb orb]. destruct (written t qi) as [u|]; [|reflexivity]. rewrite andb_false_r. reflexivity. }
    destruct (t_data t0); try exact P. destruct N.
  - rewrite <- !app_assoc in H. destruct (Ho eq_refl) as (r & ->). cbn [first_tok] in *. destruct (anchor_toks an ++ tk ++ TFlowSequenceStart :: r) as [|d0 l0] eqn:E0; [destruct an, tk; discriminate E0|].
    eapply g_peek; [exact H|]. intros t0 r0 s1 E1 H1 Et1.
    assert (N : match t_data t0 with TAlias _ => False | _ => True end).
    { rewrite E1. destruct an as [an|]; cbn [anchor_toks app] in E0; [injection E0 as <- _; exact I|]. destruct Ht; injection E0 as <- _; exact I. }
    assert (P : gives (node_at (EvSequenceStart an t i sty) a rs (TFlowSequenceStart :: r) ms tds al) (parse_node_content b false t0 (Mk_pst s1 (a :: rs) st ms tds al))).
    { unfold parse_node_content. eapply (g_props an _ tk TFlowSequenceStart r); [exact Ht|reflexivity|exact E0|exact H1|exact E1|exact Et1|]. intros s2 m1 m2 m3 H2.
      eapply g_resolve; [exact Ht|exact Hn|exact Hh|reflexivity|]. eapply g_peek; [exact H2|]. intros t3 r3 s3 E3 H3 Et3. cbv zeta. rewrite E3.
      apply g_goto, g_ret. split; [|exists s3; auto]. cbn [e_data reread_one]. f_equal. destruct t as [[|]|]; [destruct (Hne eq_refl)|reflexivity..]. }
    destruct (t_data t0); try exact P. destruct N.
  - rewrite <- !app_assoc in H. destruct (Ho eq_refl) as (r & ->). cbn [first_tok] in *. destruct (anchor_toks an ++ tk ++ TFlowMappingStart :: r) as [|d0 l0] eqn:E0; [destruct an, tk; discriminate E0|].
    eapply g_peek; [exact H|]. intros t0 r0 s1 E1 H1 Et1.
    assert (N : match t_data t0 with TAlias _ => False | _ => True end).
    { rewrite E1. destruct an as [an|]; cbn [anchor_toks app] in E0; [injection E0 as <- _; exact I|]. destruct Ht; injection E0 as <- _; exact I. }
    assert (P : gives (node_at (EvMappingStart an t i sty) a rs (TFlowMappingStart :: r) ms tds al) (parse_node_content b false t0 (Mk_pst s1 (a :: rs) st ms tds al))).
    { unfold parse_node_content. eapply (g_props an _ tk TFlowMappingStart r); [exact Ht|reflexivity|exact E0|exact H1|exact E1|exact Et1|]. intros s2 m1 m2 m3 H2.
      eapply g_resolve; [exact Ht|exact Hn|exact Hh|reflexivity|]. eapply g_peek; [exact H2|]. intros t3 r3 s3 E3 H3 Et3. cbv zeta. rewrite E3.
      apply g_goto, g_ret. split; [|exists s3; auto]. cbn [e_data reread_one]. f_equal. destruct t as [[|]|]; [destruct (Hne eq_refl)|reflexivity..]. }
    destruct (t_data t0); try exact P. destruct N.
Qed.

(** ** Collections *)
Definition pst_of (f : frame) (first : bool) : pstate :=
  match f with
  | FRoot => PDocumentContent | FDone => PDocumentEnd
  | FSeq => if first then PFlowSequenceFirstEntry else PFlowSequenceEntry
  | FKey => if first then PFlowMappingFirstKey else PFlowMappingKey
  | FVal => PFlowMappingValue
  end.
Definition stk (fs : list frame) : list pstate := match fs with FRoot :: _ => [PDocumentEnd] | _ :: r => map (fun f => pst_of f false) r | [] => [] end.
Definition top (fs : list frame) (first : bool) : pstate := match fs with f :: _ => pst_of f first | [] => PEnd end.
Definition in_doc (ds : list tag_directive) (fs : list frame) (first : bool) (rest : list token_data) (p : pst) : Prop :=
  exists s ms al, Sc s rest /\ p = Mk_pst s (stk fs) (top fs first) ms (all_tds ds) al.
Definition seen (d : event_data) (R : pst -> Prop) (e : event) (p : pst) : Prop := e_data e = d /\ R p.
Lemma g_conseq {A} (Q Q' : A -> pst -> Prop) r : gives Q r -> (forall a p, Q a p -> Q' a p) -> gives Q' r.
Proof. intros (a & p & E & H) HQ. exists a, p. auto. Qed.
Lemma node_in_doc d ds f' r' rest ms al e p : f' <> FRoot -> node_at d (pst_of f' false) (map (fun f => pst_of f false) r') rest ms (all_tds ds) al e p ->
  is_node d = true -> seen (reread_one d) (in_doc ds (push d (f' :: r')) (opens d) rest) e p.
Proof.
  intros Hf (E & s & H & ->) Hn. split; [exact E|]. exists s, ms, al. split; [exact H|].
  destruct d; try discriminate Hn; cbn [opens push first_pstate stk top pst_of map]; try reflexivity; destruct f'; try congruence; reflexivity.
Qed.
Section doc.
Variable ds : list tag_directive.
Hypothesis Hn : NoDup (map td_handle (all_tds ds)).
Hypothesis Hh : forall td, In td (all_tds ds) -> valid_handle (td_handle td).
Variable d : event_data.
Variable tk rest : list token_data.
Hypothesis Hne : tag_ne d.
Lemma node_is_node : node_toks (all_tds ds) d tk -> is_node d = true. Proof. intros []; reflexivity. Qed.
Lemma g_child b f' r' s st ms al : node_toks (all_tds ds) d tk -> (opens d = true -> exists r, rest = first_tok d :: r) -> f' <> FRoot ->
  Sc s (tk ++ rest) -> gives (seen (reread_one d) (in_doc ds (push d (f' :: r')) (opens d) rest)) (parse_node b false (Mk_pst s (pst_of f' false :: map (fun f => pst_of f false) r') st ms (all_tds ds) al)).
Proof.
  intros Hd Ho Hf H. eapply g_conseq; [eapply g_node; [exact Hd|exact Hne|exact Hn|exact Hh|exact Ho|exact H]|].
  intros e p Hp. eapply node_in_doc; [exact Hf|exact Hp|exact (node_is_node Hd)].
Qed.
Lemma g_enter {A} (first : bool) x l s sts st ms tds al (k : unit -> M pst A) Q : Sc s (if first then x :: l else l) -> x <> TStreamEnd ->
  (forall s' ms', Sc s' l -> gives Q (k tt (Mk_pst s' sts st ms' tds al))) -> gives Q (bind (enter_collection first) k (Mk_pst s sts st ms tds al)).
Proof.
  intros H Hx Hk. unfold enter_collection. destruct first; [|apply Hk, H]. apply g_bind. eapply g_peek; [exact H|]. intros t r s' Ed H' Et.
  unfold push_mark. unfold bind at 1. cbn [modify]. unfold set_marks. cbn [sc states state marks tag_directives aliases].
  destruct (skip_sc lf s' x l H') as (s2 & E & E2 & H2); [congruence|]. unfold pskip, on_sc. cbn [sc]. rewrite E. apply g_ret. apply Hk, H2.
  rewrite E2. destruct x; try reflexivity. congruence.
Qed.
Lemma g_leave e0 t x l r s a rs st ms tds al (Q : event -> pst -> Prop) : Sc s (x :: l) -> x <> TStreamEnd -> tokens s = t :: r ->
  (forall s' ms', Sc s' l -> Q (Mk_event e0 (t_start t) (t_end t)) (Mk_pst s' rs a ms' tds al)) -> gives Q (leave_collection e0 t (Mk_pst s (a :: rs) st ms tds al)).
Proof.
  intros H Hx Et Hq. unfold leave_collection. apply g_pop. unfold drop_mark. unfold bind at 1. cbn [modify]. unfold set_marks. cbn [sc states state marks tag_directives aliases].
  eapply g_skip; [exact H|exact Et|exact Hx|]. intros s' H'. apply g_ret, Hq, H'.
Qed.
Lemma top_ne r : r <> [] -> r <> [FRoot] -> stack_ok r -> map (fun f => pst_of f false) r = top r false :: stk r.
Proof. destruct r as [|[] [|? ?]]; intros; try congruence; try reflexivity; contradiction. Qed.
Lemma stack_ne r : stack_ok r -> r <> []. Proof. destruct r; [contradiction|discriminate]. Qed.

Lemma g_seq_node (first : bool) r p : node_toks (all_tds ds) d tk -> (opens d = true -> exists r, rest = first_tok d :: r) ->
  in_doc ds (FSeq :: r) first (lead (FSeq :: r) first ++ tk ++ rest) p -> gives (seen (reread_one d) (in_doc ds (push d (FSeq :: r)) (opens d) rest)) (parse_flow_sequence_entry first p).
Proof.
  intros Hd Ho (s & ms & al & H & ->). unfold parse_flow_sequence_entry. cbn [lead app] in H. destruct (node_starts _ _ _ rest Hd Ho) as (x & l & E & Hx).
  set (L := tk ++ rest) in *.
  apply (g_enter first TFlowSequenceStart (if first then L else TFlowEntry :: L)); [destruct first; exact H|discriminate|]. clear s ms H. intros s ms H.
  assert (F : forall t (t0 := t) r0 s', Sc s' L -> tokens s' = t0 :: r0 -> t_data t0 = x -> gives (seen (reread_one d) (in_doc ds (push d (FSeq :: r)) (opens d) rest))
    ((match t_data t0 with
      | Base.TKey => goto PFlowSequenceEntryMappingKey ;; pskip ;; ret (Mk_event (EvMappingStart None None true MapFlow) (t_start t0) (t_end t0))
      | TFlowSequenceEnd => leave_collection EvSequenceEnd t0
      | _ => push_state PFlowSequenceEntry ;; parse_node false false
      end) (Mk_pst s' (stk (FSeq :: r)) (top (FSeq :: r) first) ms (all_tds ds) al))).
  { intros t t0 r0 s' H' Et Ed. rewrite Ed. 
    assert (G : gives (seen (reread_one d) (in_doc ds (push d (FSeq :: r)) (opens d) rest)) ((push_state PFlowSequenceEntry ;; parse_node false false) (Mk_pst s' (stk (FSeq :: r)) (top (FSeq :: r) first) ms (all_tds ds) al))).
    { apply g_push. exact (g_child false FSeq r s' _ ms al Hd Ho ltac:(discriminate) H'). }
    destruct x; try discriminate Hx; exact G. }
  rewrite E in *. destruct first.
  - eapply g_peek; [exact H|]. intros t0 r0 s1 E1 H1 Et1. 
    assert (X : match t_data t0 with TFlowSequenceEnd => False | _ => True end) by (rewrite E1; destruct x; try discriminate Hx; exact I).
    specialize (F t0 r0 s1 H1 Et1 E1). destruct (t_data t0) eqn:Q; try contradiction X; cbn [flow_separator]; unfold bind at 1; cbn [ret]; rewrite Q; exact F.
  - eapply g_peek; [exact H|]. intros t0 r0 s1 E1 H1 Et1. rewrite E1. unfold flow_separator. rewrite E1. 
    apply g_bind. eapply g_skip; [exact H1|exact Et1|discriminate|]. intros s2 H2.
    destruct (peek_sc lf Hlf s2 x l H2) as (t3 & r3 & s3 & E3 & Ed3 & H3 & Et3 & _). unfold ppeek, on_sc. cbn [sc]. rewrite E3. apply g_ret. exact (F t3 r3 s3 H3 Et3 Ed3).
Qed.
Lemma g_key_node (first : bool) r p : node_toks (all_tds ds) d tk -> (opens d = true -> exists r, rest = first_tok d :: r) ->
  in_doc ds (FKey :: r) first (lead (FKey :: r) first ++ tk ++ rest) p -> gives (seen (reread_one d) (in_doc ds (push d (FVal :: r)) (opens d) rest)) (parse_flow_mapping_key first p).
Proof.
  intros Hd Ho (s & ms & al & H & ->). unfold parse_flow_mapping_key. cbn [lead app] in H. destruct (node_starts _ _ _ rest Hd Ho) as (x & l & E & Hx).
  set (L := tk ++ rest) in *.
  apply (g_enter first TFlowMappingStart (if first then Base.TKey :: L else TFlowEntry :: Base.TKey :: L)); [destruct first; exact H|discriminate|]. clear s ms H. intros s ms H.
  assert (F : forall t0 r0 s', Sc s' (Base.TKey :: L) -> tokens s' = t0 :: r0 -> gives (seen (reread_one d) (in_doc ds (push d (FVal :: r)) (opens d) rest))
    ((pskip ;;
          t <- ppeek ;;
          match t_data t with
          | TValue | TFlowEntry | TFlowMappingEnd =>
              goto PFlowMappingValue ;; ret (empty_scalar (t_start t))
          | _ => push_state PFlowMappingValue ;; parse_node false false
          end) (Mk_pst s' (stk (FKey :: r)) (top (FKey :: r) first) ms (all_tds ds) al))).
  { intros t0 r0 s' H' Et. eapply g_skip; [exact H'|exact Et|discriminate|]. intros s2 H2. rewrite E in H2. eapply g_peek; [exact H2|]. intros t3 r3 s3 E3 H3 Et3.
    assert (G : gives (seen (reread_one d) (in_doc ds (push d (FVal :: r)) (opens d) rest)) ((push_state PFlowMappingValue ;; parse_node false false) (Mk_pst s3 (stk (FKey :: r)) (top (FKey :: r) first) ms (all_tds ds) al))).
    { rewrite <- E in H3. apply g_push. exact (g_child false FVal r s3 _ ms al Hd Ho ltac:(discriminate) H3). }
    rewrite E3. destruct x; try discriminate Hx; exact G. }
  destruct first.
  - eapply g_peek; [exact H|]. intros t0 r0 s1 E1 H1 Et1. rewrite E1. cbn [flow_separator]. unfold bind at 1. cbn [ret]. rewrite E1. exact (F t0 r0 s1 H1 Et1).
  - eapply g_peek; [exact H|]. intros t0 r0 s1 E1 H1 Et1. rewrite E1. unfold flow_separator. rewrite E1.
    apply g_bind. eapply g_skip; [exact H1|exact Et1|discriminate|]. intros s2 H2.
    eapply g_peek0; [exact H2|]. intros t3 r3 s3 Ed3 H3 Et3. cbv beta. rewrite Ed3. exact (F t3 r3 s3 H3 Et3).
Qed.
Lemma g_val_node r p : node_toks (all_tds ds) d tk -> (opens d = true -> exists r, rest = first_tok d :: r) ->
  in_doc ds (FVal :: r) false (lead (FVal :: r) false ++ tk ++ rest) p -> gives (seen (reread_one d) (in_doc ds (push d (FKey :: r)) (opens d) rest)) (parse_flow_mapping_value false p).
Proof.
  intros Hd Ho (s & ms & al & H & ->). unfold parse_flow_mapping_value. cbn [lead app] in H. destruct (node_starts _ _ _ rest Hd Ho) as (x & l & E & Hx).
  eapply g_peek; [exact H|]. intros t0 r0 s1 E1 H1 Et1. rewrite E1. eapply g_skip; [exact H1|exact Et1|discriminate|]. intros s2 H2. rewrite E in H2.
  eapply g_peek; [exact H2|]. intros t3 r3 s3 E3 H3 Et3. rewrite <- E in H3.
  assert (G : gives (seen (reread_one d) (in_doc ds (push d (FKey :: r)) (opens d) rest)) ((push_state PFlowMappingKey ;; parse_node false false) (Mk_pst s3 (stk (FVal :: r)) (top (FVal :: r) false) ms (all_tds ds) al))).
  { apply g_push. exact (g_child false FKey r s3 _ ms al Hd Ho ltac:(discriminate) H3). }
  rewrite E3. destruct x; try discriminate Hx; exact G.
Qed.
Lemma g_root_node p : node_toks (all_tds ds) d tk -> (opens d = true -> exists r, rest = first_tok d :: r) ->
  in_doc ds [FRoot] false (tk ++ rest) p -> gives (seen (reread_one d) (in_doc ds (push d [FDone]) (opens d) rest)) (parse_document_content p).
Proof.
  intros Hd Ho (s & ms & al & H & ->). unfold parse_document_content. destruct (node_starts _ _ _ rest Hd Ho) as (x & l & E & Hx). rewrite E in H.
  eapply g_peek; [exact H|]. intros t3 r3 s3 E3 H3 Et3. rewrite <- E in H3.
  assert (G : gives (seen (reread_one d) (in_doc ds (push d [FDone]) (opens d) rest)) (parse_node true false (Mk_pst s3 (stk [FRoot]) (top [FRoot] false) ms (all_tds ds) al))).
  { exact (g_child true FDone [] s3 _ ms al Hd Ho ltac:(discriminate) H3). }
  rewrite E3. destruct x; try discriminate Hx; exact G.
Qed.
Lemma g_seq_end (first : bool) r p : stack_ok (FSeq :: r) -> in_doc ds (FSeq :: r) first ((if first then TFlowSequenceStart else TFlowEntry) :: TFlowSequenceEnd :: rest) p ->
  gives (seen EvSequenceEnd (in_doc ds r false rest)) (parse_flow_sequence_entry first p).
Proof.
  intros [Hr1 Hr2] (s & ms & al & H & ->). unfold parse_flow_sequence_entry. cbn [stk]. rewrite (top_ne r (stack_ne r Hr1) Hr2 Hr1).
  apply (g_enter first TFlowSequenceStart (if first then TFlowSequenceEnd :: rest else TFlowEntry :: TFlowSequenceEnd :: rest)); [destruct first; exact H|discriminate|]. clear s ms H. intros s ms H.
  destruct first.
  - eapply g_peek; [exact H|]. intros t0 r0 s1 E1 H1 Et1. rewrite E1. eapply g_leave; [exact H1|discriminate|exact Et1|]. intros s2 ms2 H2. split; [reflexivity|]. exists s2, ms2, al. auto.
  - eapply g_peek; [exact H|]. intros t0 r0 s1 E1 H1 Et1. rewrite E1. unfold flow_separator. rewrite E1.
    apply g_bind. eapply g_skip; [exact H1|exact Et1|discriminate|]. intros s2 H2.
    eapply g_peek0; [exact H2|]. intros t3 r3 s3 Ed3 H3 Et3. cbv beta. rewrite Ed3.
    eapply g_leave; [exact H3|discriminate|exact Et3|]. intros s4 ms4 H4. split; [reflexivity|]. exists s4, ms4, al. auto.
Qed.
Lemma g_map_end (first : bool) r p : stack_ok (FKey :: r) -> in_doc ds (FKey :: r) first ((if first then TFlowMappingStart else TFlowEntry) :: TFlowMappingEnd :: rest) p ->
  gives (seen EvMappingEnd (in_doc ds r false rest)) (parse_flow_mapping_key first p).
Proof.
  intros [Hr1 Hr2] (s & ms & al & H & ->). unfold parse_flow_mapping_key. cbn [stk]. rewrite (top_ne r (stack_ne r Hr1) Hr2 Hr1).
  apply (g_enter first TFlowMappingStart (if first then TFlowMappingEnd :: rest else TFlowEntry :: TFlowMappingEnd :: rest)); [destruct first; exact H|discriminate|]. clear s ms H. intros s ms H.
  destruct first.
  - eapply g_peek; [exact H|]. intros t0 r0 s1 E1 H1 Et1. rewrite E1. eapply g_leave; [exact H1|discriminate|exact Et1|]. intros s2 ms2 H2. split; [reflexivity|]. exists s2, ms2, al. auto.
  - eapply g_peek; [exact H|]. intros t0 r0 s1 E1 H1 Et1. rewrite E1. unfold flow_separator. rewrite E1.
    apply g_bind. eapply g_skip; [exact H1|exact Et1|discriminate|]. intros s2 H2.
    eapply g_peek0; [exact H2|]. intros t3 r3 s3 Ed3 H3 Et3. cbv beta. rewrite Ed3.
    eapply g_leave; [exact H3|discriminate|exact Et3|]. intros s4 ms4 H4. split; [reflexivity|]. exists s4, ms4, al. auto.
Qed.
End doc.
(** ** Documents *)
Lemma itok_short it : (length (itok it) <= 1)%nat. Proof. destruct it; cbn; lia. Qed.
Lemma itext_ne it : item_ok lf it -> itok it <> [] -> (1 <= length (itext lf it))%nat.
Proof.
  intros H Hn. destruct it; try (destruct Hn; reflexivity); cbn [itext length]; try (rewrite app_length; cbn [length lit]); try lia.
  1:{ destruct f; cbn [form_text]; rewrite ?app_length; cbn [length]; try lia. destruct H as [[-> |(w & -> & _)] _]; rewrite ?app_length; cbn [length lit]; cbn; lia. }
  all: cbn; lia.
Qed.
Lemma toks_len its : Forall (item_ok lf) its -> (length (toks its) <= length (texts lf its))%nat.
Proof.
  induction 1 as [|it its H _ IH]; [cbn; lia|]. change (toks (it :: its)) with (itok it ++ toks its). change (texts lf (it :: its)) with (itext lf it ++ texts lf its).
  rewrite !app_length. pose proof (itok_short it) as H1. destruct (itok it) as [|x l] eqn:E; [cbn [length]; lia|].
  assert (H2 : (1 <= length (itext lf it))%nat) by (apply itext_ne; [exact H|congruence]). lia.
Qed.
Lemma sc_budget s l sts st ms tds al : Sc s l -> (length l < tok_budget (Mk_pst s sts st ms tds al))%nat.
Proof.
  intros ((k & H) & _). unfold tok_budget. cbn [sc]. unfold meas. inversion H as [its ls' Hid Hb Hss Hin Hfl Hk Ht Hc Hr Hl Hok E1 E2|s0 m ls ls' its E0 HL Hr Hl Hok E1 E2|b I O E1 E2]; subst.
  - cbn [length]. rewrite app_length, Hb. cbn [length]. pose proof (toks_len its Hok). lia.
  - rewrite !app_length, map_length. cbn [length]. pose proof (toks_len its Hok) as P. change (tokens (at_ s0 (texts lf its) m)) with (tokens s0). change (buffer (at_ s0 (texts lf its) m)) with (texts lf its). lia.
  - rewrite map_length. lia.
Qed.
Definition vd_toks (vd : option version_directive) : list token_data := match vd with Some v => [TVersionDirective (vd_major v) (vd_minor v)] | None => [] end.
Definition td_toks (tds : list tag_directive) : list token_data := map (fun t => TTagDirective (td_handle t) (td_prefix t)) tds.
Definition dir_body : option version_directive * list tag_directive -> M pst (option version_directive * list tag_directive + option version_directive * list tag_directive) := fun '(vd, tds) =>
    t <- ppeek ;;
    match t_data t with
    | TVersionDirective major minor =>
        match vd with
        | Some _ => fail (EParser "" mark0 "found duplicate %YAML directive" (t_start t))
        | None =>
            if negb (major =? 1)%Z || negb (minor =? 1)%Z && negb (minor =? 2)%Z then
              fail (EParser "" mark0 "found incompatible YAML document" (t_start t))
            else pskip ;; ret (inl (Some (Mk_vd major minor), tds))
        end
    | TTagDirective handle prefix =>
        on_sc (set_front (TTagDirective [] [])) ;;
        append_tag_directive (Mk_td handle prefix) false (t_start t) ;;
        pskip ;; ret (inl (vd, tds ++ [Mk_td handle prefix]))
    | _ => ret (inr (vd, tds))
    end.
Lemma g_append {A} t b m s sts st ms tds al (k : unit -> M pst A) Q :
  (In (td_handle t) (map td_handle tds) -> b = true /\ gives Q (k tt (Mk_pst s sts st ms tds al))) ->
  (~ In (td_handle t) (map td_handle tds) -> gives Q (k tt (Mk_pst s sts st ms (tds ++ [t]) al))) ->
  gives Q (bind (append_tag_directive t b m) k (Mk_pst s sts st ms tds al)).
Proof.
  intros H1 H2. unfold append_tag_directive. unfold bind at 1. unfold bind at 1. cbn [get tag_directives].
  destruct (existsb (fun u => str_eqb (td_handle t) (td_handle u)) tds) eqn:E.
  - apply existsb_handle in E. destruct (H1 E) as [-> Hq]. exact Hq.
  - apply H2. intros H. apply existsb_handle in H. congruence.
Qed.
Lemma td_eta t : Mk_td (td_handle t) (td_prefix t) = t. Proof. destruct t; reflexivity. Qed.
Definition loop_end (vd : option version_directive) (l : list token_data) sts st ms tds al (r : option version_directive * list tag_directive) (p : pst) : Prop :=
  r = (vd, tds) /\ exists s, Sc s l /\ p = Mk_pst s sts st ms tds al.
Lemma g_tags n : forall l0 l vd done s sts st ms al x, (length l0 < n)%nat -> NoDup (map td_handle (done ++ l0)) -> is_directive_or_boundary x = true -> match x with TVersionDirective _ _ | TTagDirective _ _ => False | _ => True end ->
  Sc s (td_toks l0 ++ x :: l) -> gives (loop_end vd (x :: l) sts st ms (done ++ l0) al) (loopM n dir_body (vd, done) (Mk_pst s sts st ms done al)).
Proof.
  induction n as [|n IH]; intros l0 l vd done s sts st ms al x Hlen Hnd Hx Hx2 H; [lia|]. cbn [loopM].
  destruct l0 as [|t0 l0]; cbn [td_toks map app] in H.
  - apply g_bind. unfold dir_body. eapply g_peek; [exact H|]. intros t r s' Ed H' Et. rewrite Ed.
    rewrite app_nil_r. destruct x; try contradiction Hx2; try discriminate Hx; (apply g_ret; apply g_ret; split; [reflexivity|]; exists s'; auto).
  - apply g_bind. unfold dir_body at 1. eapply g_peek; [exact H|]. intros t r s1 Ed H1 Et. rewrite Ed.
    destruct (set_front_sc lf s1 _ _ t r (TTagDirective [] []) H1 Et) as (s2 & E2 & H2 & Et2 & _).
    eapply g_on; [exact E2|]. apply g_append.
    { intros Hin. exfalso. cbn [td_handle] in Hin. rewrite map_app in Hnd. cbn [map] in Hnd. apply NoDup_remove_2 in Hnd. apply Hnd, in_or_app. left. exact Hin. }
    intros _. rewrite td_eta. eapply g_skip; [exact H2|exact Et2|discriminate|]. intros s3 H3. apply g_ret.
    replace (done ++ t0 :: l0) with ((done ++ [t0]) ++ l0) in * by (rewrite <- app_assoc; reflexivity). apply IH; [cbn in Hlen; lia|exact Hnd|exact Hx|exact Hx2|exact H3].
Qed.
Lemma g_directives vd tds x l s sts st ms al : all valid_version vd -> NoDup (map td_handle tds) -> is_directive_or_boundary x = true -> match x with TVersionDirective _ _ | TTagDirective _ _ => False | _ => True end ->
  Sc s (vd_toks vd ++ td_toks tds ++ x :: l) -> gives (loop_end vd (x :: l) sts st ms tds al) (directives_loop (Mk_pst s sts st ms [] al)).
Proof.
  intros Hv Hnd Hx Hx2 H. unfold directives_loop. pose proof (sc_budget s _ sts st ms [] al H) as Hb. match goal with |- context [loopM _ ?b] => change b with dir_body end.
  rewrite !app_length in Hb. unfold td_toks in Hb. rewrite map_length in Hb. destruct vd as [v|]; cbn [vd_toks app length] in *.
  - revert Hb. generalize (tok_budget (Mk_pst s sts st ms [] al)). intros [|n] Hb; [lia|]. cbn [loopM]. apply g_bind. unfold dir_body at 1. eapply g_peek; [exact H|]. intros t r s1 Ed H1 Et. rewrite Ed.
    destruct v as [ma mi]. destruct Hv as [E1 E2]. cbn [vd_major vd_minor] in *. rewrite E1.
    replace (negb (1 =? 1)%Z || negb (mi =? 1)%Z && negb (mi =? 2)%Z) with false by (destruct E2 as [-> | ->]; reflexivity).
    eapply g_skip; [exact H1|exact Et|discriminate|]. intros s2 H2. apply g_ret. exact (g_tags n tds l _ [] s2 sts st ms al x ltac:(lia) Hnd Hx Hx2 H2).
  - apply (g_tags _ tds l None [] s sts st ms al x); [lia|assumption..].
Qed.
Lemma g_process vd tds x l s sts st ms al : all valid_version vd -> NoDup (map td_handle tds) -> is_directive_or_boundary x = true -> match x with TVersionDirective _ _ | TTagDirective _ _ => False | _ => True end ->
  Sc s (vd_toks vd ++ td_toks tds ++ x :: l) -> gives (fun r p => r = (vd, tds) /\ exists s, Sc s (x :: l) /\ p = Mk_pst s sts st ms (all_tds tds) al) (process_directives (Mk_pst s sts st ms [] al)).
Proof.
  intros Hv Hnd Hx Hx2 H. unfold process_directives. apply g_bind. eapply g_conseq; [apply (g_directives vd tds x l); assumption|].
  intros r p (-> & s1 & H1 & ->). eapply g_peek; [exact H1|]. intros t r s2 Ed H2 Et.
  assert (E : all_tds tds = (tds ++ (if existsb (fun u => str_eqb (lit "!") (td_handle u)) tds then [] else [Mk_td (lit "!") (lit "!")])) ++ (if existsb (fun u => str_eqb (lit "!!") (td_handle u)) tds then [] else [Mk_td (lit "!!") (lit "tag:yaml.org,2002:")])).
  { unfold all_tds, default_tag_directives. cbn [filter td_handle]. rewrite <- app_assoc. f_equal.
    destruct (existsb (fun u => str_eqb (lit "!") (td_handle u)) tds), (existsb (fun u => str_eqb (lit "!!") (td_handle u)) tds); reflexivity. }
  assert (F : forall tds1, tds1 = tds ++ (if existsb (fun u => str_eqb (lit "!") (td_handle u)) tds then [] else [Mk_td (lit "!") (lit "!")]) ->
    gives (fun r p => r = (vd, tds) /\ exists s, Sc s (x :: l) /\ p = Mk_pst s sts st ms (all_tds tds) al)
     ((append_tag_directive (Mk_td (lit "!!") (lit "tag:yaml.org,2002:")) true (t_start t) ;; ret (vd, tds)) (Mk_pst s2 sts st ms tds1 al))).
  { intros tds1 E1. assert (E2 : existsb (fun u => str_eqb (lit "!!") (td_handle u)) tds1 = existsb (fun u => str_eqb (lit "!!") (td_handle u)) tds).
    { rewrite E1, existsb_app. destruct (existsb (fun u => str_eqb (lit "!") (td_handle u)) tds); cbn [existsb]; rewrite ?orb_false_r; reflexivity. }
    rewrite <- E1, <- E2 in E. apply g_append; cbn [td_handle]; intros Hi.
    - split; [reflexivity|]. apply g_ret. split; [reflexivity|]. exists s2. split; [exact H2|].
      assert (Eb : existsb (fun u => str_eqb (lit "!!") (td_handle u)) tds1 = true) by (apply (proj2 (existsb_handle (Mk_td (lit "!!") []) tds1)); exact Hi). rewrite Eb, app_nil_r in E. rewrite E. reflexivity.
    - apply g_ret. split; [reflexivity|]. exists s2. split; [exact H2|].
      assert (Eb : existsb (fun u => str_eqb (lit "!!") (td_handle u)) tds1 = false) by (apply not_true_iff_false; intros Eb; apply Hi; apply (proj1 (existsb_handle (Mk_td (lit "!!") []) tds1)); exact Eb). rewrite Eb in E. rewrite E. reflexivity. }
  apply g_append; cbn [td_handle]; intros Hi.
  - split; [reflexivity|]. apply F.
    assert (Eb : existsb (fun u => str_eqb (lit "!") (td_handle u)) tds = true) by (apply (proj2 (existsb_handle (Mk_td (lit "!") []) tds)); exact Hi). rewrite Eb, app_nil_r. reflexivity.
  - apply F.
    assert (Eb : existsb (fun u => str_eqb (lit "!") (td_handle u)) tds = false) by (apply not_true_iff_false; intros Eb; apply Hi; apply (proj1 (existsb_handle (Mk_td (lit "!") []) tds)); exact Eb). rewrite Eb. reflexivity.
Qed.
Definition at_docs (fst : bool) (rest : list token_data) (p : pst) : Prop :=
  exists s ms al, Sc s rest /\ p = Mk_pst s [] (if fst then PImplicitDocumentStart else PDocumentStart) ms [] al.
Lemma g_no_ends {A} x l s sts st ms tds al (k : unit -> M pst A) Q : Sc s (x :: l) -> x <> TDocumentEnd -> (forall s', Sc s' (x :: l) -> gives Q (k tt (Mk_pst s' sts st ms tds al))) ->
  gives Q (bind skip_document_ends k (Mk_pst s sts st ms tds al)).
Proof.
  intros H Hx Hk. apply g_bind. unfold skip_document_ends. pose proof (sc_budget s _ sts st ms tds al H) as Hb. revert Hb. generalize (tok_budget (Mk_pst s sts st ms tds al)). intros [|n] Hb; [lia|].
  cbn [loopM]. apply g_bind. eapply g_peek; [exact H|]. intros t r s' Ed H' Et. rewrite Ed. destruct x; try congruence; (apply g_ret; apply g_ret; apply Hk, H').
Qed.
Lemma g_doc_start fst vd tds rest p : all valid_version vd -> NoDup (map td_handle tds) -> at_docs fst (directive_toks vd tds ++ TDocumentStart :: rest) p ->
  gives (seen (EvDocumentStart vd tds false) (in_doc tds [FRoot] false rest)) (parse_document_start fst p).
Proof.
  intros Hv Hnd (s & ms & al & H & ->). change (directive_toks vd tds) with (vd_toks vd ++ td_toks tds) in H. rewrite <- app_assoc in H. set (st := if fst then _ else _).
  assert (Hd : exists x l, vd_toks vd ++ td_toks tds ++ TDocumentStart :: rest = x :: l /\ is_directive_or_boundary x = true /\ x <> TStreamEnd).
  { destruct vd as [v|]; [eexists _, _; split; [reflexivity|split; [reflexivity|discriminate]]|]. destruct tds as [|t tds]; eexists _, _; (split; [reflexivity|split; [reflexivity|discriminate]]). }
  destruct Hd as (x & l & E & Hx & Hx2). unfold parse_document_start.
  assert (F : forall s, Sc s (vd_toks vd ++ td_toks tds ++ TDocumentStart :: rest) -> gives (seen (EvDocumentStart vd tds false) (in_doc tds [FRoot] false rest))
   ((t <- ppeek ;;
  if fst && negb (is_directive_or_boundary (t_data t)) then
    process_directives ;;
    push_state PDocumentEnd ;; goto PBlockNode ;;
    ret (Mk_event (EvDocumentStart None [] true) (t_start t) (t_end t))
  else if negb (is_stream_end t) then
    '(vd, tds) <- process_directives ;;
    t' <- ppeek ;;
    match t_data t' with
    | TDocumentStart =>
        push_state PDocumentEnd ;; goto PDocumentContent ;; pskip ;;
        ret (Mk_event (EvDocumentStart vd tds false) (t_start t) (t_end t'))
    | _ => fail (EParser "" mark0 "did not find expected <document start>" (t_start t'))
    end
  else
    goto PEnd ;; pskip ;;
    ret (Mk_event EvStreamEnd (t_start t) (t_end t))) (Mk_pst s [] st ms [] al))).
  { clear s H. intros s H. rewrite E in H. eapply g_peek; [exact H|]. intros t0 r0 s1 E1 H1 Et1. rewrite E1, Hx, andb_false_r.
    assert (is_stream_end t0 = false) as -> by (unfold is_stream_end; rewrite E1; destruct x; congruence). cbn [negb]. rewrite <- E in H1.
    apply g_bind. eapply g_conseq; [apply (g_process vd tds TDocumentStart rest); [exact Hv|exact Hnd|reflexivity|exact I|exact H1]|]. intros r p (-> & s2 & H2 & ->).
    eapply g_peek; [exact H2|]. intros t3 r3 s3 E3 H3 Et3. rewrite E3. apply g_push, g_goto. eapply g_skip; [exact H3|exact Et3|discriminate|]. intros s4 H4. apply g_ret.
    split; [reflexivity|]. exists s4, ms, al. auto. }
  destruct fst.
  - apply F, H.
  - rewrite E in H. eapply g_no_ends; [exact H|intros ->; discriminate Hx|]. intros s' H'. rewrite <- E in H'. apply F, H'.
Qed.
Definition finished (p : pst) : Prop := stream_end_produced (sc p) = true.
Lemma g_stream_end fst p : at_docs fst [TStreamEnd] p -> gives (seen EvStreamEnd finished) (parse_document_start fst p).
Proof.
  intros (s & ms & al & H & ->). set (st := if fst then _ else _). unfold parse_document_start.
  assert (F : forall s, Sc s [TStreamEnd] -> gives (seen EvStreamEnd finished)
   ((t <- ppeek ;;
  if fst && negb (is_directive_or_boundary (t_data t)) then
    process_directives ;;
    push_state PDocumentEnd ;; goto PBlockNode ;;
    ret (Mk_event (EvDocumentStart None [] true) (t_start t) (t_end t))
  else if negb (is_stream_end t) then
    '(vd, tds) <- process_directives ;;
    t' <- ppeek ;;
    match t_data t' with
    | TDocumentStart =>
        push_state PDocumentEnd ;; goto PDocumentContent ;; pskip ;;
        ret (Mk_event (EvDocumentStart vd tds false) (t_start t) (t_end t'))
    | _ => fail (EParser "" mark0 "did not find expected <document start>" (t_start t'))
    end
  else
    goto PEnd ;; pskip ;;
    ret (Mk_event EvStreamEnd (t_start t) (t_end t))) (Mk_pst s [] st ms [] al))).
  { clear s H. intros s H. eapply g_peek; [exact H|]. intros t0 r0 s1 E1 H1 Et1. rewrite E1. cbn [is_directive_or_boundary negb]. rewrite andb_false_r.
    assert (is_stream_end t0 = true) as -> by (unfold is_stream_end; rewrite E1; reflexivity). cbn [negb]. apply g_goto.
    destruct (skip_sc lf s1 _ _ H1) as (s2 & E2 & E3 & _); [congruence|]. eapply g_on; [exact E2|]. apply g_ret. split; [reflexivity|exact E3]. }
  destruct fst.
  - apply F, H.
  - eapply g_no_ends; [exact H|discriminate|]. intros s' H'. apply F, H'.
Qed.
Lemma g_doc_end ds (b : bool) x l p : in_doc ds [FDone] false (if b then x :: l else TDocumentEnd :: x :: l) p -> (b = true -> x <> TDocumentEnd) ->
  gives (seen (EvDocumentEnd b) (at_docs false (x :: l))) (parse_document_end p).
Proof.
  intros (s & ms & al & H & ->) Hx. unfold parse_document_end. destruct b.
  - eapply g_peek; [exact H|]. intros t0 r0 s1 E1 H1 Et1. rewrite E1. apply g_bind.
    assert (G : forall Q : mark * bool -> pst -> Prop, Q (t_start t0, true) (Mk_pst s1 (stk [FDone]) (top [FDone] false) ms (all_tds ds) al) ->
      gives Q (match x with TDocumentEnd => pskip ;; ret (t_end t0, false) | _ => ret (t_start t0, true) end (Mk_pst s1 (stk [FDone]) (top [FDone] false) ms (all_tds ds) al))).
    { intros Q HQ. specialize (Hx eq_refl). destruct x; try congruence; apply g_ret, HQ. }
    apply G. unfold bind. cbn [modify]. apply g_ret. split; [reflexivity|]. exists s1, ms, al. auto.
  - eapply g_peek; [exact H|]. intros t0 r0 s1 E1 H1 Et1. rewrite E1. apply g_bind. eapply g_skip; [exact H1|exact Et1|discriminate|]. intros s2 H2. apply g_ret.
    unfold bind. cbn [modify]. apply g_ret. split; [reflexivity|]. exists s2, ms, al. auto.
Qed.
(** ** The whole stream *)
Lemma crun_open ds d fs' oe l tk st' : opens d = true -> crun (CS (GDoc ds (push d fs')) (opens d) oe) l tk st' -> cg st' = GEnd -> exists r, tk = first_tok d :: r.
Proof.
  intros Ho H Hg. rewrite Ho in H. inversion H as [|? d1 t1 st1 l1 t1' ? Hs Hr]; subst; [discriminate Hg|].
  destruct d; try discriminate Ho; cbn [push] in *; (inversion Hs; subst; [eexists; reflexivity|eexists; reflexivity]).
Qed.
Lemma crun_reopen l tk st' : crun (CS GDocs false true) l tk st' -> cg st' = GEnd ->
  exists tk' x r, tk' ++ [TStreamEnd] = x :: r /\ crun (CS GDocs false false) l tk' st' /\ tk = (if directives_next l then [TDocumentEnd] else []) ++ tk' /\ x <> TDocumentEnd.
Proof.
  intros H Hg. inversion H as [|? d1 t1 st1 l1 t1' ? Hs Hr]; subst; [discriminate Hg|]. inversion Hs; subst.
  - assert (E : has_directives vd tds = directives_next (EvDocumentStart vd tds imp :: l1)) by (destruct vd, tds; reflexivity). rewrite E. cbn [andb].
    pose proof (CR_cons _ _ _ _ _ _ _ (C_doc false false vd tds imp) Hr) as HR. cbn [andb app] in HR.
    assert (X : exists x r, ((directive_toks vd tds ++ [TDocumentStart]) ++ t1') ++ [TStreamEnd] = x :: r /\ x <> TDocumentEnd).
    { unfold directive_toks. destruct vd; [eexists _, _; split; [reflexivity|discriminate]|]. destruct tds; eexists _, _; (split; [reflexivity|discriminate]). }
    destruct X as (x & r & E1 & E2). exists ((directive_toks vd tds ++ [TDocumentStart]) ++ t1'), x, r. split; [exact E1|]. split; [exact HR|]. split; [rewrite <- app_assoc; reflexivity|exact E2].
  - inversion Hr as [|? d2 t2 st2 l2 t2' ? Hs2 Hr2]; subst; [|inversion Hs2]. exists [], TStreamEnd, []. split; [reflexivity|]. split; [|split; [reflexivity|discriminate]].
    exact (CR_cons _ _ _ _ _ _ _ (C_stream_end false false) Hr).
Qed.
Lemma all_tds_nodup ds : NoDup (map td_handle ds) -> NoDup (map td_handle (all_tds ds)).
Proof.
  intros H. unfold all_tds, default_tag_directives. cbn [filter td_handle].
  assert (A : forall h, existsb (fun u => str_eqb h (td_handle u)) ds = false -> ~ In h (map td_handle ds)).
  { intros h E Hi. apply in_map_iff in Hi. destruct Hi as (u & <- & Hu). apply not_true_iff_false in E. apply E. apply existsb_exists. exists u. split; [exact Hu|]. apply str_eqb_eq. reflexivity. }
  assert (S1 : forall h p l, NoDup (map td_handle l) -> ~ In h (map td_handle l) -> NoDup (map td_handle (l ++ [Mk_td h p]))).
  { intros h p l Hl Hi. rewrite map_app. cbn [map td_handle]. apply (Permutation_NoDup (l := h :: map td_handle l)); [apply Permutation_cons_append|]. constructor; assumption. }
  destruct (existsb (fun u => str_eqb (lit "!") (td_handle u)) ds) eqn:E1, (existsb (fun u => str_eqb (lit "!!") (td_handle u)) ds) eqn:E2; cbn [negb].
  - rewrite app_nil_r. exact H.
  - apply S1; [exact H|apply A, E2].
  - apply S1; [exact H|apply A, E1].
  - change [Mk_td (lit "!") (lit "!"); Mk_td (lit "!!") (lit "tag:yaml.org,2002:")] with ([Mk_td (lit "!") (lit "!")] ++ [Mk_td (lit "!!") (lit "tag:yaml.org,2002:")]). rewrite app_assoc.
    apply S1; [apply S1; [exact H|apply A, E1]|]. rewrite map_app, in_app_iff. intros [Hi|[Hi|[]]]; [exact (A _ E2 Hi)|discriminate Hi].
Qed.
Definition at_state (fst : bool) (st : cst) (rest : list token_data) (p : pst) : Prop :=
  match cg st with
  | GDocs => at_docs fst rest p
  | GDoc ds fs => in_doc ds fs (cfirst st) rest p /\ Forall valid_directive ds /\ NoDup (map td_handle ds) /\ stack_ok fs /\ (cfirst st = true -> match fs with (FSeq | FKey) :: _ => True | _ => False end)
  | GEnd => finished p
  | GStart => False
  end.
Lemma Sc_going s l : Sc s l -> stream_end_produced s = false. Proof. intros (_ & H & _). exact H. Qed.
Lemma next_of p m Q : state_machine p = m p -> at_end p = false -> gives Q (m p) -> exists e p', parser_next p = (Ok (Some e), p') /\ Q e p'.
Proof.
  intros E Ha (e & p' & H & HQ). exists e, p'. split; [|exact HQ]. unfold parser_next. unfold bind at 1. cbn [get]. rewrite Ha. unfold bind at 1. unfold parse. unfold bind at 1. cbn [get]. rewrite Ha, E, H. reflexivity.
Qed.
Definition ev_ok (d : event_data) : Prop := valid_directives d /\ tag_ne d.
(** One call. *)
Lemma one_call fst st d tk st1 l t' st2 p : cstep st d tk st1 -> crun st1 l t' st2 -> cg st2 = GEnd -> copen st = false -> ev_ok d -> at_state fst st (tk ++ t' ++ [TStreamEnd]) p ->
  exists e p' st1' t1', parser_next p = (Ok (Some e), p') /\ reread (d :: l) = e_data e :: reread l /\ crun st1' l t1' st2 /\ copen st1' = false /\ at_state false st1' (t1' ++ [TStreamEnd]) p'.
Proof.
  intros Hs Hr Hg Ho [Hvd Htn] Hp. destruct Hs as [f oe vd tds imp|f oe ds imp|f oe|ds fs fs' first oe d tk Ha Ht|ds r first oe|ds r first oe]; cbn [copen] in Ho; try subst oe; unfold at_state in Hp; cbn [cg cfirst] in Hp.
  - (* document start *)
    cbn [andb app] in Hp. rewrite <- app_assoc in Hp. destruct Hvd as (V1 & V2 & V3).
    destruct (next_of p (parse_document_start fst) (seen (EvDocumentStart vd tds false) (in_doc tds [FRoot] false (t' ++ [TStreamEnd])))) as (e & p' & E & E1 & HQ).
    + destruct Hp as (s & ms & al & H & ->). destruct fst; reflexivity.
    + destruct Hp as (s & ms & al & H & ->). unfold at_end. cbn [sc state]. rewrite (Sc_going _ _ H). destruct fst; reflexivity.
    + apply g_doc_start; [exact V1|exact V3|exact Hp].
    + exists e, p', (CS (GDoc tds [FRoot]) false false), t'. split; [exact E|]. split; [cbn [reread]; rewrite E1; reflexivity|]. split; [exact Hr|]. split; [reflexivity|].
      unfold at_state. cbn [cg cfirst]. split; [exact HQ|]. split; [exact V2|]. split; [exact V3|]. split; [exact I|discriminate].
  - (* document end *)
    destruct Hp as (Hp & V2 & V3 & Hk & Hf). assert (f = false) as -> by (destruct f; [destruct (Hf eq_refl)|reflexivity]).
    assert (N : exists (b : bool) tk' x r, b = imp && negb (directives_next l) /\ crun (CS GDocs false false) l tk' st2 /\ tk' ++ [TStreamEnd] = x :: r /\ (b = true -> x <> TDocumentEnd) /\
       (if imp then [] else [TDocumentEnd]) ++ t' ++ [TStreamEnd] = if b then x :: r else TDocumentEnd :: x :: r).
    { destruct imp.
      - destruct (crun_reopen l t' st2 Hr Hg) as (tk' & x & r & E1 & R1 & E2 & Hx). exists (negb (directives_next l)), tk', x, r. split; [reflexivity|]. split; [exact R1|]. split; [exact E1|]. split; [auto|].
        rewrite E2. destruct (directives_next l); cbn [negb app]; rewrite E1; reflexivity.
      - destruct (t' ++ [TStreamEnd]) as [|x r] eqn:E; [destruct t'; discriminate E|]. exists false, t', x, r. split; [reflexivity|]. split; [exact Hr|]. split; [exact E|]. split; [discriminate|]. cbn [app]. rewrite ?E. reflexivity. }
    destruct N as (b & tk' & x & r & Eb & R1 & E1 & Hx & E2). rewrite E2 in Hp.
    destruct (next_of p parse_document_end (seen (EvDocumentEnd b) (at_docs false (x :: r)))) as (e & p' & E & E3 & HQ).
    + destruct Hp as (s & ms & al & H & ->). reflexivity.
    + destruct Hp as (s & ms & al & H & ->). unfold at_end. cbn [sc state]. rewrite (Sc_going _ _ H). reflexivity.
    + eapply g_doc_end; [exact Hp|exact Hx].
    + exists e, p', (CS GDocs false false), tk'. split; [exact E|]. split; [cbn [reread]; rewrite E3, Eb; reflexivity|]. split; [exact R1|]. split; [reflexivity|]. rewrite E1. exact HQ.
  - (* stream end *)
    inversion Hr as [|? d2 t2 st3 l2 t2' ? Hs2 Hr2]; subst; [|inversion Hs2]. cbn [app] in Hp.
    destruct (next_of p (parse_document_start fst) (seen EvStreamEnd finished)) as (e & p' & E & E3 & HQ).
    + destruct Hp as (s & ms & al & H & ->). destruct fst; reflexivity.
    + destruct Hp as (s & ms & al & H & ->). unfold at_end. cbn [sc state]. rewrite (Sc_going _ _ H). destruct fst; reflexivity.
    + apply g_stream_end, Hp.
    + exists e, p', (CS GEnd false false), []. split; [exact E|]. split; [cbn [reread]; rewrite E3; reflexivity|]. split; [exact Hr|]. split; [reflexivity|]. exact HQ.
  - (* node *)
    destruct Hp as (Hp & V2 & V3 & Hk & Hf). pose proof (all_tds_nodup ds V3) as Hnd. pose proof (all_handles ds V2) as Hh. rewrite <- app_assoc in Hp.
    assert (Hop : opens d = true -> exists r, t' ++ [TStreamEnd] = first_tok d :: r).
    { intros Hop. destruct (crun_open _ _ _ _ _ _ _ Hop Hr Hg) as (r & ->). eexists. reflexivity. }
    assert (Hin : is_node d = true) by (destruct Ht; reflexivity).
    assert (C : exists m, state_machine p = m p /\ gives (seen (reread_one d) (in_doc ds (push d fs') (opens d) (t' ++ [TStreamEnd]))) (m p)).
    { destruct fs as [|[] r]; try discriminate Ha; injection Ha as <-.
      - assert (first = false) as -> by (destruct first; [destruct (Hf eq_refl)|reflexivity]). destruct r; [|contradiction Hk].
        exists parse_document_content. split; [destruct Hp as (s & ms & al & H & ->); reflexivity|]. eapply g_root_node; [exact Hnd|exact Hh|exact Htn|exact Ht|exact Hop|exact Hp].
      - exists (parse_flow_sequence_entry first). split; [destruct Hp as (s & ms & al & H & ->); destruct first; reflexivity|]. eapply g_seq_node; [exact Hnd|exact Hh|exact Htn|exact Ht|exact Hop|exact Hp].
      - exists (parse_flow_mapping_key first). split; [destruct Hp as (s & ms & al & H & ->); destruct first; reflexivity|]. eapply g_key_node; [exact Hnd|exact Hh|exact Htn|exact Ht|exact Hop|exact Hp].
      - assert (first = false) as -> by (destruct first; [destruct (Hf eq_refl)|reflexivity]).
        exists (parse_flow_mapping_value false). split; [destruct Hp as (s & ms & al & H & ->); reflexivity|]. eapply g_val_node; [exact Hnd|exact Hh|exact Htn|exact Ht|exact Hop|exact Hp]. }
    destruct C as (m & Em & Hm).
    destruct (next_of p m (seen (reread_one d) (in_doc ds (push d fs') (opens d) (t' ++ [TStreamEnd]))) Em) as (e & p' & E & E3 & HQ).
    + destruct Hp as (s & ms & al & H & ->). unfold at_end. cbn [sc state]. rewrite (Sc_going _ _ H). destruct fs as [|[] r]; try discriminate Ha; try reflexivity; destruct first; reflexivity.
    + exact Hm.
    + exists e, p', (CS (GDoc ds (push d fs')) (opens d) false), t'. split; [exact E|]. split; [destruct d; try discriminate Hin; cbn [reread]; rewrite E3; reflexivity|].
      split; [exact Hr|]. split; [reflexivity|]. unfold at_state. cbn [cg cfirst]. split; [exact HQ|]. split; [exact V2|]. split; [exact V3|].
      pose proof (cstep_gstep _ _ _ _ (C_node ds fs fs' first false d tk Ha Ht)) as G. cbn [cg] in G. split; [exact (gstep_ok (GDoc ds fs) _ _ Hk G)|].
      intros Ho. destruct d; try discriminate Ho; exact I.
  - (* end of a sequence *)
    destruct Hp as (Hp & V2 & V3 & Hk & Hf).
    destruct (next_of p (parse_flow_sequence_entry first) (seen EvSequenceEnd (in_doc ds r false (t' ++ [TStreamEnd])))) as (e & p' & E & E3 & HQ).
    + destruct Hp as (s & ms & al & H & ->). destruct first; reflexivity.
    + destruct Hp as (s & ms & al & H & ->). unfold at_end. cbn [sc state]. rewrite (Sc_going _ _ H). destruct first; reflexivity.
    + eapply g_seq_end; [exact Hk|exact Hp].
    + exists e, p', (CS (GDoc ds r) false false), t'. split; [exact E|]. split; [cbn [reread]; rewrite E3; reflexivity|]. split; [exact Hr|]. split; [reflexivity|].
      split; [exact HQ|]. split; [exact V2|]. split; [exact V3|]. split; [apply Hk|discriminate].
  - destruct Hp as (Hp & V2 & V3 & Hk & Hf).
    destruct (next_of p (parse_flow_mapping_key first) (seen EvMappingEnd (in_doc ds r false (t' ++ [TStreamEnd])))) as (e & p' & E & E3 & HQ).
    + destruct Hp as (s & ms & al & H & ->). destruct first; reflexivity.
    + destruct Hp as (s & ms & al & H & ->). unfold at_end. cbn [sc state]. rewrite (Sc_going _ _ H). destruct first; reflexivity.
    + eapply g_map_end; [exact Hk|exact Hp].
    + exists e, p', (CS (GDoc ds r) false false), t'. split; [exact E|]. split; [cbn [reread]; rewrite E3; reflexivity|]. split; [exact Hr|]. split; [reflexivity|].
      split; [exact HQ|]. split; [exact V2|]. split; [exact V3|]. split; [apply Hk|discriminate].
Qed.
Lemma all_calls l : forall fst st tk st2 p, crun st l tk st2 -> cg st2 = GEnd -> copen st = false -> Forall ev_ok l -> at_state fst st (tk ++ [TStreamEnd]) p ->
  exists es p', calls parser_next (length l) p = (map (fun e => Ok (Some e)) es, p') /\ map e_data es = reread l /\ finished p'.
Proof.
  induction l as [|d l IH]; intros fst st tk st2 p Hr Hg Ho Hv Hp.
  - inversion Hr; subst. exists [], p. split; [reflexivity|]. split; [reflexivity|]. unfold at_state in Hp. rewrite Hg in Hp. exact Hp.
  - inversion Hr as [|? ? t1 st1 ? t1' ? Hs Hr1]; subst. rewrite <- app_assoc in Hp.
    destruct (one_call fst st d t1 st1 l t1' st2 p Hs Hr1 Hg Ho (Forall_inv Hv) Hp) as (e & p' & st1' & tk1 & E & Er & R1 & O1 & P1).
    destruct (IH false st1' tk1 st2 p' R1 Hg O1 (Forall_inv_tail Hv) P1) as (es & p2 & E2 & Er2 & F2).
    exists (e :: es), p2. cbn [length calls map]. rewrite E, E2, Er, Er2. auto.
Qed.
End parse.
