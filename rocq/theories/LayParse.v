(** LayParse.v -- the parser on the tokens of output in block or flow layout. *)
From Coq Require Import Lia ZifyBool ZifyNat ZifyN Bool Permutation.
From Verif Require Import Base Utf Chars State Reader Scanner Parser Wp ScanFacts RoundScan EState Emitter Document Api Spec_Events EventFacts Spec_EmitNames EmitGrammar Spec_Canonical Spec_Layout CanonLex CanonBody LayItems LayLex LayScan LayToks.
Open Scope N_scope.

(** ** The number of tokens *)
Section count.
Variable lf : str.
Lemma walk_li w s s1 : walk w s = Some s1 -> lli s1 = lli s. Proof. intros H. apply walk_is in H. tauto. Qed.
Lemma flush_li s s1 : flush s = Some s1 -> lli s1 = lli s.
Proof. unfold flush. destruct (lv s =? 0); [destruct (_ && _)|destruct (is_empty _)]; intros [= <-]; reflexivity. Qed.
Lemma save_li s s1 tk : save s = Some (s1, tk) -> (length tk + length (lli s1) <= 3 + length (lli s))%nat.
Proof.
  unfold save. destruct (lsl s) as [|sl r]; [discriminate|]. destruct (lsoon s).
  - destruct (_ && _); [|discriminate]. destruct (lv s =? 0); [|intros [= <- <-]; cbn; lia]. destruct (_ <? _)%Z; [destruct (_ <=? _); intros [= <- <-]; cbn; lia|]. destruct (_ =? _)%Z; intros [= <- <-]; cbn; lia.
  - destruct (lal s); [destruct (_ || _); [discriminate|]|]; intros [= <- <-]; cbn; lia.
Qed.
Lemma unsave_li s s1 : unsave s = Some s1 -> lli s1 = lli s.
Proof. unfold unsave. destruct (lsl s); [discriminate|]. destruct (_ || _); intros [= <-]; reflexivity. Qed.
Lemma roll_li d s s1 tk : roll d s = Some (s1, tk) -> (length tk + length (lli s1) <= 2 + length (lli s))%nat.
Proof. unfold roll. destruct (negb (lal s)); [discriminate|]. destruct (_ <? _)%Z; [destruct (_ <=? _); intros [= <- <-]; cbn; lia|]. destruct (_ =? _)%Z; intros [= <- <-]; cbn; lia. Qed.
Lemma outer_li s s1 : outer_line s = Some s1 -> lli s1 = [].
Proof. unfold outer_line. destruct (_ && _); [|discriminate]. destruct (unsave s); intros [= <-]; reflexivity. Qed.
Lemma itok_one i : (length (itok i) <= 1)%nat. Proof. destruct i; cbn; lia. Qed.
Ltac ob H := repeat match type of H with
  | option_bind ?o _ = Some _ => let E := fresh "E" in destruct o as [?|] eqn:E; [cbn [option_bind] in H|discriminate H]
  | (let '(_, _) := ?p in _) = Some _ => destruct p
  end.
Lemma step_li ls i ls1 tk : lstep lf ls i = Some (ls1, tk) -> (length tk + length (lli ls1) <= (if is_pre i then 0 else 4) + length (lli ls))%nat.
Proof.
  intros H. pose proof (itok_one i) as I1. destruct i; cbn [lstep is_pre] in H |- *; ob H.
  all: try match goal with X : roll _ _ = Some (?a, ?b) |- _ => apply roll_li in X end.
  all: repeat match goal with
    | X : walk _ _ = Some _ |- _ => apply walk_li in X; cbn [level slots_to lli] in X
    | X : flush _ = Some _ |- _ => apply flush_li in X
    | X : save _ = Some _ |- _ => apply save_li in X
    | X : unsave _ = Some _ |- _ => apply unsave_li in X
    | X : outer_line _ = Some _ |- _ => apply outer_li in X
    end.
  all: try (injection H as <- <-; cbn [then_ lli length]; rewrite ?app_length; repeat match goal with X : lli _ = _ |- _ => rewrite X in * end; cbn [length app] in *; lia).
  - destruct (lli ls) eqn:El; [discriminate|]. injection H as <- <-. cbn [lli length]. lia.
  - destruct (lv ls =? 0); [apply roll_li in E1|injection E1 as <- <-]; injection H as <- <-; cbn [then_ lli length]; rewrite ?app_length; repeat match goal with X : lli _ = _ |- _ => rewrite X in * end; cbn [length app] in *; lia.
  - destruct (lsl l) as [|[] r]; try discriminate H; ob H;
    repeat match goal with X : walk _ _ = Some _ |- _ => apply walk_li in X; cbn [level slots_to lli] in X end;
    injection H as <- <-; cbn [then_ lli length]; repeat match goal with X : lli _ = _ |- _ => rewrite X in * end; cbn [length app] in *; lia.
Qed.
Lemma run_li its : forall ls ls1 tk, lrun lf ls its = Some (ls1, tk) -> (length tk + length (lli ls1) <= 4 * count its + length (lli ls))%nat.
Proof.
  induction its as [|i its IH]; intros ls ls1 tk H; [cbn in H; injection H as <- <-; cbn; lia|]. apply lrun_cons in H. destruct H as (s1 & t1 & t2 & E1 & E2 & ->).
  apply step_li in E1. apply IH in E2. unfold count in *. cbn [filter]. rewrite app_length. destruct (is_pre i); cbn [negb length]; lia.
Qed.
End count.

Section parse.
Variable lf : str.
Hypothesis Hlf : lf_ok lf.
Variable T : str.
Notation Sc := (Sc lf T).
Lemma put_len o n q : (length (put o n q) <= 2 + length q)%nat.
Proof.
  destruct o as [[k t]|]; cbn [put]; [|lia]. rewrite !app_length. assert (length (ins k) <= 2)%nat by (destruct k; cbn; lia).
  assert (length q = length (firstn (N.to_nat (t - n)) q) + length (skipn (N.to_nat (t - n)) q))%nat by (rewrite <- app_length, firstn_skipn; reflexivity). lia.
Qed.
Lemma sc_budget s l sts st ms tds al : Sc s l -> (length l < tok_budget (Mk_pst s sts st ms tds al))%nat.
Proof.
  intros ((k & H) & _). unfold tok_budget. cbn [sc]. unfold meas. inversion H as [its lsE tk Hid Hh Hss Hin Hfl Hk Ht Hr Hl Hok E1 E2|ls p its lsE tk X Hr Hl Hok E1 E2|Hid O]; subst.
  - pose proof (count_len _ _ Hok). pose proof (run_li _ _ _ _ _ Hr) as L. rewrite (Hx_buf _ _ _ _ Hh Hid). cbn [ls0 lli length] in *. rewrite app_length. cbn [length]. unfold str, char in *. lia.
  - pose proof (count_len _ _ Hok). pose proof (run_li _ _ _ _ _ Hr) as L. rewrite (Hx_buf _ _ _ _ (x_hx _ _ _ _ _ X) (r_ideal _ _ _ (x_r0 _ _ _ _ _ X))).
    rewrite !app_length. unfold E. rewrite app_length, repeat_length. cbn [length]. pose proof (put_len (live_of (lsl ls) (simple_keys s)) (tokens_parsed s) (map t_data (tokens s))) as P. rewrite map_length in P.
    pose proof (f_equal (@length _) (r_ind _ _ _ (x_r0 _ _ _ _ _ X))) as R. rewrite !app_length, map_length, app_length in R. cbn [length] in R.
    assert (length (lli ls) <= 1 + length (real ls))%nat by (unfold real; destruct (existsb is_roll (lsl ls)); destruct (lli ls); cbn; lia).
    unfold str, char in *. lia.
  - rewrite map_length. lia.
Qed.
(** The outcome of a call: an event, and a state. *)
Definition gives {A} (Q : A -> pst -> Prop) (r : res A * pst) : Prop := exists a p, r = (Ok a, p) /\ Q a p.
Lemma g_ret {A} (a : A) p (Q : A -> pst -> Prop) : Q a p -> gives Q (ret a p).
Proof. intros H. exists a, p. auto. Qed.
(** The front token [t] has been looked at. *)
Definition seen_tok (s : sst) (t : token) : Prop := token_available s = true /\ exists r, tokens s = t :: r.
Lemma g_peek {A} d l s sts st ms tds al (k : token -> M pst A) Q : Sc s (d :: l) ->
  (forall t s', t_data t = d -> Sc s' (d :: l) -> seen_tok s' t -> gives Q (k t (Mk_pst s' sts st ms tds al))) -> gives Q (bind ppeek k (Mk_pst s sts st ms tds al)).
Proof.
  intros H Hk. destruct (peek_sc lf Hlf T s d l H) as (t & r & s' & E & Ed & H' & Et & Ea). unfold bind, ppeek, on_sc. cbn [sc]. rewrite E. apply (Hk t s' Ed H'). split; eauto.
Qed.
Lemma g_peek0 d l s sts st ms tds al (Q : token -> pst -> Prop) : Sc s (d :: l) ->
  (forall t s', t_data t = d -> Sc s' (d :: l) -> seen_tok s' t -> Q t (Mk_pst s' sts st ms tds al)) -> gives Q (ppeek (Mk_pst s sts st ms tds al)).
Proof.
  intros H Hk. destruct (peek_sc lf Hlf T s d l H) as (t & r & s' & E & Ed & H' & Et & Ea). unfold ppeek, on_sc. cbn [sc]. rewrite E. eexists t, _. split; [reflexivity|]. apply (Hk t s' Ed H'). split; eauto.
Qed.
Lemma g_skip {A} d l t s sts st ms tds al (k : unit -> M pst A) Q : Sc s (d :: l) -> seen_tok s t -> d <> TStreamEnd ->
  (forall s', Sc s' l -> gives Q (k tt (Mk_pst s' sts st ms tds al))) -> gives Q (bind pskip k (Mk_pst s sts st ms tds al)).
Proof.
  intros H Et Hd Hk. destruct (skip_sc lf T s d l H (proj1 Et)) as (s' & E & E2 & H'). unfold bind, pskip, on_sc. cbn [sc]. rewrite E. apply Hk, H'.
  rewrite E2. destruct d; try reflexivity. congruence.
Qed.
Lemma g_bind {A B} (m : M pst A) (k : A -> M pst B) p Q : gives (fun a p' => gives Q (k a p')) (m p) -> gives Q (bind m k p).
Proof. intros (a & p' & E & H). unfold bind. rewrite E. exact H. Qed.
Lemma g_on {A B} (m : M sst A) a s' s sts st ms tds al (k : A -> M pst B) Q : m s = (Ok a, s') -> gives Q (k a (Mk_pst s' sts st ms tds al)) -> gives Q (bind (on_sc m) k (Mk_pst s sts st ms tds al)).
Proof. intros E H. unfold bind, on_sc. cbn [sc]. rewrite E. exact H. Qed.
Lemma g_goto {A} x s sts st ms tds al (k : unit -> M pst A) Q : gives Q (k tt (Mk_pst s sts x ms tds al)) -> gives Q (bind (goto x) k (Mk_pst s sts st ms tds al)).
Proof. auto. Qed.
Lemma g_push {A} x s sts st ms tds al (k : unit -> M pst A) Q : gives Q (k tt (Mk_pst s (x :: sts) st ms tds al)) -> gives Q (bind (push_state x) k (Mk_pst s sts st ms tds al)).
Proof. auto. Qed.
Lemma g_pop {A} x s sts st ms tds al (k : unit -> M pst A) Q : gives Q (k tt (Mk_pst s sts x ms tds al)) -> gives Q (bind pop_state k (Mk_pst s (x :: sts) st ms tds al)).
Proof. auto. Qed.
Lemma g_conseq {A} (Q Q' : A -> pst -> Prop) r : gives Q r -> (forall a p, Q a p -> Q' a p) -> gives Q' r.
Proof. intros (a & p & E & H) HQ. exists a, p. auto. Qed.

(** ** Nodes *)
Definition starts (ind : bool) (d : token_data) : bool :=
  match d with TAnchor _ | TTag _ _ | TAlias _ | TScalar _ _ | TFlowSequenceStart | TFlowMappingStart | TBlockSequenceStart | TBlockMappingStart => true | TBlockEntry => ind | _ => false end.
Definition allowed (b ind : bool) (a : act) : Prop := match a with NSeq SkBlock | NMap true | NEmpty => b = true | NSeq SkInd => ind = true | _ => True end.
Definition bare (a : act) (tk : list token_data) : Prop := a = NEmpty /\ tk = [].
Lemma bare_dec a tk : {bare a tk} + {~ bare a tk}.
Proof. unfold bare. destruct a; try (right; intros [D _]; discriminate D). destruct tk; [left; auto|right; intros [_ D]; discriminate D]. Qed.
Lemma first_starts b ind a : opens_act a = true -> allowed b ind a -> starts ind (first_tok a) = true.
Proof. destruct a as [| |[]|[]]; cbn; auto; discriminate. Qed.
Lemma node_starts b ind tds d tk a rest : lnode tds d tk a -> ~ bare a tk -> allowed b ind a -> (opens_act a = true -> exists r, rest = first_tok a :: r) -> exists x l, tk ++ rest = x :: l /\ starts ind x = true.
Proof.
  intros H Hb Ha Ho. destruct H as [an|an t v pi qi sty tk t' sty' Hs Ht|an t pi qi sty tk t' Hs Ht|an t i sty tk k Ht|an t i sty tk k Ht].
  - eexists _, _. split; reflexivity.
  - destruct an as [an|]; [eexists _, _; split; reflexivity|]. cbn [anchor_toks app]. inversion Ht; subst; eexists _, _; split; reflexivity.
  - destruct an as [an|]; [eexists _, _; split; reflexivity|]. cbn [anchor_toks app]. inversion Ht; subst; [destruct Hb; split; reflexivity|eexists _, _; split; reflexivity..].
  - destruct (Ho eq_refl) as (r & ->). destruct an as [an|]; [eexists _, _; split; reflexivity|]. cbn [anchor_toks app]. inversion Ht; subst; [|eexists _, _; split; reflexivity..]. eexists _, _. split; [reflexivity|]. eapply first_starts; [reflexivity|exact Ha].
  - destruct (Ho eq_refl) as (r & ->). destruct an as [an|]; [eexists _, _; split; reflexivity|]. cbn [anchor_toks app]. inversion Ht; subst; [|eexists _, _; split; reflexivity..]. eexists _, _. split; [reflexivity|]. eapply first_starts; [reflexivity|exact Ha].
Qed.
Lemma find_own tds td : In td tds -> NoDup (map td_handle tds) -> find_handle (td_handle td) tds = Some td.
Proof.
  intros Hi Hn. unfold find_handle. induction tds as [|u tds IH]; [destruct Hi|]. cbn [find]. cbn [map] in Hn. apply NoDup_cons_iff in Hn. destruct Hn as [Hn1 Hn2].
  destruct Hi as [-> |Hi]; [replace (str_eqb (td_handle td) (td_handle td)) with true by (symmetry; apply str_eqb_eq; reflexivity); reflexivity|].
  destruct (str_eqb (td_handle u) (td_handle td)) eqn:E; [|exact (IH Hi Hn2)]. apply str_eqb_eq in E. destruct Hn1. rewrite E. apply in_map, Hi.
Qed.
Lemma g_resolve {A} t o tk m1 m2 s sts st ms tds al (k : option str -> M pst A) Q : tag_toks tds t tk -> NoDup (map td_handle tds) -> (forall td, In td tds -> valid_handle (td_handle td)) ->
  o = match tk with TTag h x :: _ => Some (h, x) | _ => None end ->
  gives Q (k t (Mk_pst s sts st ms tds al)) -> gives Q (bind (resolve_tag o m1 m2) k (Mk_pst s sts st ms tds al)).
Proof.
  intros H Hn Hh -> Hk. unfold resolve_tag. destruct H as [|t|td x Hi Hx]; [exact Hk|exact Hk|].
  unfold bind. cbn [get tag_directives]. assert (is_empty (td_handle td) = false) as -> by (destruct (Hh td Hi) as [-> |(w & -> & _)]; reflexivity).
  rewrite (find_own tds td Hi Hn). exact Hk.
Qed.
Definition no_prop (d : token_data) : bool := match d with TAnchor _ | TTag _ _ => false | _ => true end.
Lemma g_props {A} a t tk x0 rest t0 d0 l0 s sts st ms tds al (k : _ -> M pst A) Q :
  tag_toks tds t tk -> no_prop x0 = true -> anchor_toks a ++ tk ++ x0 :: rest = d0 :: l0 -> Sc s (d0 :: l0) -> t_data t0 = d0 -> seen_tok s t0 ->
  (forall s' m1 m2 m3, Sc s' (x0 :: rest) -> gives Q (k (a, match tk with TTag h x :: _ => Some (h, x) | _ => None end, m1, m2, m3) (Mk_pst s' sts st ms tds al))) ->
  gives Q (bind (parse_properties t0) k (Mk_pst s sts st ms tds al)).
Proof.
  intros Ht Hx E H Ed Et Hk. apply g_bind. unfold parse_properties. rewrite Ed. rewrite <- E in H.
  assert (TT : tk = [] \/ exists h y, tk = [TTag h y]) by (destruct Ht; eauto).
  destruct a as [a|]; cbn [anchor_toks app] in E, H.
  - injection E as <- E. eapply g_skip; [exact H|exact Et|discriminate|]. intros s1 H1. destruct TT as [-> |(h & y & ->)]; cbn [app] in H1.
    + eapply g_peek; [exact H1|]. intros t2 s2 E2 H2 Et2. rewrite E2. destruct x0; try discriminate Hx; (apply g_ret, Hk, H2).
    + eapply g_peek; [exact H1|]. intros t2 s2 E2 H2 Et2. rewrite E2. eapply g_skip; [exact H2|exact Et2|discriminate|]. intros s3 H3. apply g_ret, Hk, H3.
  - destruct TT as [-> |(h & y & ->)]; cbn [app] in E, H.
    + injection E as <- E. destruct x0; try discriminate Hx; (apply g_ret, Hk, H).
    + injection E as <- E. eapply g_skip; [exact H|exact Et|discriminate|]. intros s1 H1.
      eapply g_peek; [exact H1|]. intros t2 s2 E2 H2 Et2. rewrite E2. destruct x0; try discriminate Hx; (apply g_ret, Hk, H2).
Qed.
Definition pst_of (f : lframe) (first : bool) : pstate :=
  match f with
  | LRoot true => PBlockNode | LRoot false => PDocumentContent | LDone => PDocumentEnd
  | LSeq SkFlow => if first then PFlowSequenceFirstEntry else PFlowSequenceEntry
  | LSeq SkBlock => if first then PBlockSequenceFirstEntry else PBlockSequenceEntry
  | LSeq SkInd => PIndentlessSequenceEntry
  | LKey false => if first then PFlowMappingFirstKey else PFlowMappingKey
  | LKey true => if first then PBlockMappingFirstKey else PBlockMappingKey
  | LVal false => PFlowMappingValue | LVal true => PBlockMappingValue
  end.
Definition first_pstate (a : act) : pstate := match a with NSeq k => pst_of (LSeq k) true | NMap b => pst_of (LKey b) true | _ => PEnd end.
Definition node_at (d : event_data) (ac : act) (a : pstate) (rs : list pstate) (rest : list token_data) (ms : list mark) (tds : list tag_directive) (al : list alias_data) (e : event) (p : pst) : Prop :=
  told d (e_data e) /\ exists s, Sc s rest /\ p = Mk_pst s (if opens_act ac then a :: rs else rs) (if opens_act ac then first_pstate ac else a) ms tds al.
Definition tag_of (d : event_data) : option str := match d with EvScalar _ t _ pi qi _ => kept_tag t (pi || qi) | EvSequenceStart _ t i _ | EvMappingStart _ t i _ => kept_tag t i | _ => None end.
Definition tag_ne (d : event_data) : Prop := all (fun t => t <> []) (tag_of d).
(** What may follow a node without content. *)
Definition quiet (ind : bool) (x : token_data) : Prop := match x with TBlockEntry => ind = false | TAnchor _ | TTag _ _ | TAlias _ | TScalar _ _ | TFlowSequenceStart | TFlowMappingStart | TBlockSequenceStart | TBlockMappingStart => False | _ => True end.
Lemma told_plain a t v pi qi sty t' sty' : scalar_tag t pi qi t' sty' -> told (EvScalar a t v pi qi sty)
  (EvScalar a t' v (style_eqb sty' SPlain && is_none t' || opt_is t' (lit "!")) (negb (style_eqb sty' SPlain && is_none t' || opt_is t' (lit "!")) && is_none t') sty').
Proof.
  intros [H1 H2]. constructor; [exact H1|]. intros ->. specialize (H2 eq_refl). cbn [is_none opt_is]. destruct sty'; cbn [style_eqb andb orb negb] in *; [right|left|right..]; repeat split; auto; discriminate.
Qed.
Lemma told_empty a t pi qi sty t' : scalar_tag t pi qi t' SPlain -> told (EvScalar a t [] pi qi sty) (EvScalar a t' [] (is_none t' || opt_is t' []) false SPlain).
Proof. intros [H1 H2]. constructor; [exact H1|]. intros ->. specialize (H2 eq_refl). left. auto. Qed.
Lemma none_eq (t : option str) i : all (fun t => t <> []) (kept_tag t i) -> is_none (kept_tag t i) || opt_is (kept_tag t i) [] = no_tag (kept_tag t i).
Proof. destruct i, t as [[|]|]; cbn; auto. congruence. Qed.
Lemma not_alias tds t tk an x rest d0 l0 : tag_toks tds t tk -> no_prop x = true -> anchor_toks an ++ tk ++ x :: rest = d0 :: l0 -> match x with TAlias _ => False | _ => True end -> match d0 with TAlias _ => False | _ => True end.
Proof. intros Ht Hx E0 Hal. destruct an as [an|]; cbn [anchor_toks app] in E0; [injection E0 as <- _; exact Logic.I|]. destruct Ht; injection E0 as <- _; exact Hal || exact Logic.I. Qed.
(** The end of [parse_node_content]. *)
Definition content (block ind : bool) (anchor tag : option str) (start_mark end_mark : mark) (t : token) : M pst event :=
  let implicit := is_none tag || opt_is tag [] in
  let fallback : M pst event :=
    if negb (is_none anchor) || negb (is_none tag) then
      pop_state ;;
      ret (Mk_event (EvScalar anchor tag [] implicit false SPlain) start_mark end_mark)
    else
      fail (EParser (if block then "while parsing a block node" else "while parsing a flow node")%string
                    start_mark "did not find expected node content" (t_start t)) in
  match t_data t with
  | TBlockEntry =>
      if ind then
        goto PIndentlessSequenceEntry ;;
        ret (Mk_event (EvSequenceStart anchor tag implicit SeqBlock) start_mark (t_end t))
      else fallback
  | TScalar value style =>
      let plain_implicit := style_eqb style SPlain && is_none tag || opt_is tag (lit "!") in
      let quoted_implicit := negb plain_implicit && is_none tag in
      pop_state ;; pskip ;;
      ret (Mk_event (EvScalar anchor tag value plain_implicit quoted_implicit style) start_mark (t_end t))
  | TFlowSequenceStart =>
      goto PFlowSequenceFirstEntry ;;
      ret (Mk_event (EvSequenceStart anchor tag implicit SeqFlow) start_mark (t_end t))
  | TFlowMappingStart =>
      goto PFlowMappingFirstKey ;;
      ret (Mk_event (EvMappingStart anchor tag implicit MapFlow) start_mark (t_end t))
  | TBlockSequenceStart =>
      if block then
        goto PBlockSequenceFirstEntry ;;
        ret (Mk_event (EvSequenceStart anchor tag implicit SeqBlock) start_mark (t_end t))
      else fallback
  | TBlockMappingStart =>
      if block then
        goto PBlockMappingFirstKey ;;
        ret (Mk_event (EvMappingStart anchor tag implicit MapBlock) start_mark (t_end t))
      else fallback
  | _ => fallback
  end.
Lemma g_content b ind an t tk x rest s st sts ms tds al Q : tag_toks tds t tk -> NoDup (map td_handle tds) -> (forall td, In td tds -> valid_handle (td_handle td)) -> no_prop x = true -> match x with TAlias _ => False | _ => True end ->
  Sc s (anchor_toks an ++ tk ++ x :: rest) ->
  (forall m1 m2 t3 s3, t_data t3 = x -> Sc s3 (x :: rest) -> seen_tok s3 t3 -> gives Q (content b ind an t m1 m2 t3 (Mk_pst s3 sts st ms tds al))) -> gives Q (parse_node b ind (Mk_pst s sts st ms tds al)).
Proof.
  intros Ht Hn Hh Hx Hal H Hk. destruct (anchor_toks an ++ tk ++ x :: rest) as [|d0 l0] eqn:E0; [destruct an, tk; discriminate E0|].
  unfold parse_node. eapply g_peek; [exact H|]. intros t0 s1 E1 H1 Et1. pose proof (not_alias _ _ _ _ _ _ _ _ Ht Hx E0 Hal) as N. rewrite <- E1 in N.
  assert (P : gives Q (parse_node_content b ind t0 (Mk_pst s1 sts st ms tds al))).
  { unfold parse_node_content. eapply (g_props an _ tk x rest); [exact Ht|exact Hx|exact E0|exact H1|exact E1|exact Et1|]. intros s2 m1 m2 m3 H2.
    eapply g_resolve; [exact Ht|exact Hn|exact Hh|reflexivity|]. eapply g_peek; [exact H2|]. intros t3 s3 E3 H3 Et3. exact (Hk m1 m2 t3 s3 E3 H3 Et3). }
  destruct (t_data t0); try exact P. destruct N.
Qed.
Lemma g_node b ind d tk ac rest a rs s st ms tds al : lnode tds d tk ac -> tag_ne d -> NoDup (map td_handle tds) -> (forall td, In td tds -> valid_handle (td_handle td)) ->
  allowed b ind ac -> ~ bare ac tk -> (opens_act ac = true -> exists r, rest = first_tok ac :: r) -> (ac = NEmpty -> exists x r, rest = x :: r /\ quiet ind x) ->
  Sc s (tk ++ rest) -> gives (node_at d ac a rs rest ms tds al) (parse_node b ind (Mk_pst s (a :: rs) st ms tds al)).
Proof.
  intros Hd Hne Hn Hh Hal Hb Ho He H. destruct Hd as [an|an t v pi qi sty tk t' sty' Hs Ht|an t pi qi sty tk t' Hs Ht|an t i sty tk k Ht|an t i sty tk k Ht].
  - cbn [app] in H. unfold parse_node. eapply g_peek; [exact H|]. intros t0 s1 E1 H1 Et1. rewrite E1. apply g_pop. eapply g_skip; [exact H1|exact Et1|discriminate|]. intros s2 H2. apply g_ret.
    split; [constructor|]. exists s2. auto.
  - rewrite <- !app_assoc in H. eapply (g_content b ind an t' tk (TScalar v sty')); [exact Ht|exact Hn|exact Hh|reflexivity|exact Logic.I|exact H|]. intros m1 m2 t3 s3 E3 H3 Et3. unfold content. rewrite E3. cbv zeta.
    apply g_pop. eapply g_skip; [exact H3|exact Et3|discriminate|]. intros s4 H4. apply g_ret. split; [|exists s4; auto]. apply told_plain, Hs.
  - destruct (He eq_refl) as (x & r & -> & Hq). rewrite <- app_assoc in H. eapply (g_content b ind an t' tk x); [exact Ht|exact Hn|exact Hh|destruct x; try contradiction Hq; reflexivity|destruct x; try contradiction Hq; exact Logic.I|exact H|]. intros m1 m2 t3 s3 E3 H3 Et3.
    assert (P : negb (is_none an) || negb (is_none t') = true).
    { destruct an; [reflexivity|]. destruct Ht; [|reflexivity..]. destruct Hb. split; reflexivity. }
    unfold content. rewrite E3, P. cbv zeta.
    assert (G : gives (node_at (EvScalar an t [] pi qi sty) NEmpty a rs (x :: r) ms tds al) ((pop_state ;; ret (Mk_event (EvScalar an t' [] (is_none t' || opt_is t' []) false SPlain) m1 m2)) (Mk_pst s3 (a :: rs) st ms tds al))).
    { apply g_pop, g_ret. split; [|exists s3; auto]. apply told_empty, Hs. }
    destruct x; try contradiction Hq; try exact G. cbn in Hq. subst ind. exact G.
  - destruct (Ho eq_refl) as (r & ->). rewrite <- app_assoc in H. eapply (g_content b ind an _ tk (first_tok (NSeq k))); [exact Ht|exact Hn|exact Hh|destruct k; reflexivity|destruct k; exact Logic.I|exact H|]. intros m1 m2 t3 s3 E3 H3 Et3.
    unfold content. rewrite E3. destruct k; cbn [first_tok allowed] in *; rewrite ?Hal; cbv zeta; apply g_goto, g_ret; (split; [|exists s3; auto]); cbn [e_data]; rewrite none_eq by exact Hne; constructor.
  - destruct (Ho eq_refl) as (r & ->). rewrite <- app_assoc in H. eapply (g_content b ind an _ tk (first_tok (NMap k))); [exact Ht|exact Hn|exact Hh|destruct k; reflexivity|destruct k; exact Logic.I|exact H|]. intros m1 m2 t3 s3 E3 H3 Et3.
    unfold content. rewrite E3. destruct k; cbn [first_tok allowed] in *; rewrite ?Hal; cbv zeta; apply g_goto, g_ret; (split; [|exists s3; auto]); cbn [e_data]; rewrite none_eq by exact Hne; constructor.
Qed.

(** ** Collections *)
Definition stk (fs : list lframe) : list pstate := match fs with LRoot _ :: _ => [PDocumentEnd] | _ :: r => map (fun f => pst_of f false) r | [] => [] end.
Definition top (fs : list lframe) (first : bool) : pstate := match fs with f :: _ => pst_of f first | [] => PEnd end.
Definition in_doc (ds : list tag_directive) (fs : list lframe) (first : bool) (rest : list token_data) (p : pst) : Prop :=
  exists s ms al, Sc s rest /\ p = Mk_pst s (stk fs) (top fs first) ms (all_tds ds) al.
Definition seen (d : event_data) (R : pst -> Prop) (e : event) (p : pst) : Prop := told d (e_data e) /\ R p.
Definition is_root (f : lframe) : bool := match f with LRoot _ => true | _ => false end.
Lemma node_in_doc d ac ds f' r' rest ms al e p : is_root f' = false -> node_at d ac (pst_of f' false) (map (fun f => pst_of f false) r') rest ms (all_tds ds) al e p ->
  seen d (in_doc ds (push_act ac (f' :: r')) (opens_act ac) rest) e p.
Proof.
  intros Hf (E & s & H & ->). split; [exact E|]. exists s, ms, al. split; [exact H|].
  destruct ac; cbn [opens_act push_act first_pstate stk top map]; try reflexivity; destruct f'; try discriminate Hf; reflexivity.
Qed.
(** What follows an empty node, by the place after it. *)
Definition follow (f : lframe) (x : token_data) : bool :=
  match f, x with
  | LSeq SkBlock, (TBlockEntry | TBlockEnd) => true
  | LSeq SkInd, (TBlockEntry | Base.TKey | TValue | TBlockEnd) => true
  | LVal true, TValue => true
  | LKey true, (Base.TKey | TBlockEnd) => true
  | LDone, (TVersionDirective _ _ | TTagDirective _ _ | TDocumentStart | TDocumentEnd | TStreamEnd) => true
  | _, _ => false
  end.
Definition ind_of (f : lframe) : bool := match f with LKey true | LVal true => true | _ => false end.
Lemma follow_quiet f x : follow f x = true -> quiet (ind_of f) x.
Proof. destruct f as [| |[]|[]|[]]; destruct x; try discriminate; intros _; exact Logic.I || reflexivity. Qed.
Lemma act_allowed ac f : act_ok ac f -> allowed (blk f) (ind_of f) ac.
Proof. destruct ac as [| |[]|[]]; cbn; auto. intros [-> | ->]; reflexivity. Qed.
Section doc.
Variable ds : list tag_directive.
Hypothesis Hn : NoDup (map td_handle (all_tds ds)).
Hypothesis Hh : forall td, In td (all_tds ds) -> valid_handle (td_handle td).
Variable d : event_data.
Variable tk rest : list token_data.
Variable ac : act.
Hypothesis Hne : tag_ne d.
Lemma g_enter {A} (first : bool) x l s sts st ms tds al (k : unit -> M pst A) Q : Sc s (if first then x :: l else l) -> x <> TStreamEnd ->
  (forall s' ms', Sc s' l -> gives Q (k tt (Mk_pst s' sts st ms' tds al))) -> gives Q (bind (enter_collection first) k (Mk_pst s sts st ms tds al)).
Proof.
  intros H Hx Hk. unfold enter_collection. destruct first; [|apply Hk, H]. apply g_bind. eapply g_peek; [exact H|]. intros t s' Ed H' Et.
  unfold push_mark. unfold bind at 1. cbn [modify]. unfold set_marks. cbn [sc states state marks tag_directives aliases].
  destruct (skip_sc lf T s' x l H' (proj1 Et)) as (s2 & E & E2 & H2). unfold pskip, on_sc. cbn [sc]. rewrite E. apply g_ret. apply Hk, H2.
  rewrite E2. destruct x; try reflexivity. congruence.
Qed.
Lemma g_leave e0 t x l s a rs st ms tds al (Q : event -> pst -> Prop) : Sc s (x :: l) -> x <> TStreamEnd -> seen_tok s t ->
  (forall s' ms', Sc s' l -> Q (Mk_event e0 (t_start t) (t_end t)) (Mk_pst s' rs a ms' tds al)) -> gives Q (leave_collection e0 t (Mk_pst s (a :: rs) st ms tds al)).
Proof.
  intros H Hx Et Hq. unfold leave_collection. apply g_pop. unfold drop_mark. unfold bind at 1. cbn [modify]. unfold set_marks. cbn [sc states state marks tag_directives aliases].
  eapply g_skip; [exact H|exact Et|exact Hx|]. intros s' H'. apply g_ret, Hq, H'.
Qed.
Section node.
Hypothesis Hd : lnode (all_tds ds) d tk ac.
Hypothesis Ho : opens_act ac = true -> exists r, rest = first_tok ac :: r.
Section frame.
Variable f : lframe.
Variable r : list lframe.
Hypothesis Hok : act_ok ac (next_frame f).
Hypothesis He : ac = NEmpty -> exists x l, rest = x :: l /\ follow (next_frame f) x = true.
Notation goal_ := (seen d (in_doc ds (push_act ac (next_frame f :: r)) (opens_act ac) rest)).
Lemma g_child b ind s st ms al : ~ bare ac tk -> allowed b ind ac -> (ind = true -> ind_of (next_frame f) = true) -> is_root (next_frame f) = false ->
  Sc s (tk ++ rest) -> gives goal_ (parse_node b ind (Mk_pst s (pst_of (next_frame f) false :: map (fun f => pst_of f false) r) st ms (all_tds ds) al)).
Proof.
  intros Hb Ha Hi Hf H. eapply g_conseq; [eapply (g_node b ind); [exact Hd|exact Hne|exact Hn|exact Hh|exact Ha|exact Hb|exact Ho| |exact H]|].
  - intros E. destruct (He E) as (x & l & E1 & E2). exists x, l. split; [exact E1|]. pose proof (follow_quiet _ _ E2) as Q. destruct ind; [rewrite (Hi eq_refl) in Q; exact Q|]. destruct x; try exact Q. reflexivity.
  - intros e p Hp. eapply node_in_doc; [exact Hf|exact Hp].
Qed.
(** A node without any token. *)
Lemma g_bare s ms al m sts st : bare ac tk -> Sc s (tk ++ rest) -> sts = map (fun f => pst_of f false) r -> st = pst_of (next_frame f) false -> is_root (next_frame f) = false -> goal_ (empty_scalar m) (Mk_pst s sts st ms (all_tds ds) al).
Proof.
  intros [E1 E2] H -> -> Hf. clear Ho Hok He. split.
  - destruct Hd as [|an t v pi qi sty tk t' sty' Hs Ht|an t pi qi sty tk t' Hs Ht| |]; try discriminate E1. destruct an; [discriminate E2|]. destruct Ht; try discriminate E2. unfold empty_scalar. cbn [e_data]. exact (told_empty None t pi qi sty None Hs).
  - exists s, ms, al. rewrite E2 in H. split; [exact H|]. rewrite E1. cbn [push_act opens_act stk top]. destruct (next_frame f); try discriminate Hf; reflexivity.
Qed.
Lemma rest_follow : bare ac tk -> exists x l, tk ++ rest = x :: l /\ follow (next_frame f) x = true.
Proof. intros [E1 ->]. exact (He E1). Qed.
End frame.
(** One lemma for the places in block collections: after the indicator. *)
Lemma g_after (f : lframe) r b ind (stop : token_data -> bool) (back : pstate) s st ms al m : act_ok ac (next_frame f) -> (ac = NEmpty -> exists x l, rest = x :: l /\ follow (next_frame f) x = true) ->
  allowed b ind ac -> (ind = true -> ind_of (next_frame f) = true) -> is_root (next_frame f) = false -> back = pst_of (next_frame f) false ->
  (forall x, follow (next_frame f) x = true -> stop x = true) -> (forall x, starts ind x = true -> stop x = false) -> Sc s (tk ++ rest) ->
  gives (seen d (in_doc ds (push_act ac (next_frame f :: r)) (opens_act ac) rest))
    ((t2 <- ppeek ;; if stop (t_data t2) then goto back ;; ret (empty_scalar (m t2)) else push_state back ;; parse_node b ind) (Mk_pst s (map (fun f => pst_of f false) r) st ms (all_tds ds) al)).
Proof.
  intros Hok He Ha Hi Hr -> Hs1 Hs2 H. destruct (bare_dec ac tk) as [Hb|Hb].
  - destruct (rest_follow f He Hb) as (x & l & E & Hx). rewrite E in H. eapply g_peek; [exact H|]. intros t0 s1 E1 H1 Et1. rewrite E1, (Hs1 x Hx). apply g_goto, g_ret. rewrite <- E in H1. eapply g_bare; auto.
  - destruct (node_starts b ind _ _ _ _ rest Hd Hb Ha Ho) as (x & l & E & Hx). rewrite E in H. eapply g_peek; [exact H|]. intros t0 s1 E1 H1 Et1. rewrite E1, (Hs2 x Hx). apply g_push. rewrite <- E in H1. eapply g_child; auto.
Qed.
Definition stop_seq (x : token_data) : bool := match x with TBlockEntry | TBlockEnd => true | _ => false end.
Definition stop_ind (x : token_data) : bool := match x with TBlockEntry | Base.TKey | TValue | TBlockEnd => true | _ => false end.
Definition stop_map (x : token_data) : bool := match x with Base.TKey | TValue | TBlockEnd => true | _ => false end.
Lemma if_stop {A} (stop : token_data -> bool) (m1 m2 : token -> M pst A) (m : token -> M pst A) Q p : (forall t, m t = (if stop (t_data t) then m1 t else m2 t)) ->
  gives Q ((t <- ppeek ;; if stop (t_data t) then m1 t else m2 t) p) -> gives Q ((t <- ppeek ;; m t) p).
Proof. intros E H. unfold bind in *. destruct (ppeek p) as [[a| | |] p']; auto. rewrite E. exact H. Qed.
Lemma g_block_seq (first : bool) r p : act_ok ac (LSeq SkBlock) -> (ac = NEmpty -> exists x l, rest = x :: l /\ follow (LSeq SkBlock) x = true) ->
  in_doc ds (LSeq SkBlock :: r) first (llead (LSeq SkBlock) first ++ tk ++ rest) p -> gives (seen d (in_doc ds (push_act ac (LSeq SkBlock :: r)) (opens_act ac) rest)) (parse_block_sequence_entry first p).
Proof.
  intros Hok He (s & ms & al & H & ->). unfold parse_block_sequence_entry. cbn [llead] in H.
  apply (g_enter first TBlockSequenceStart (TBlockEntry :: tk ++ rest)); [destruct first; exact H|discriminate|]. clear s ms H. intros s ms H.
  eapply g_peek; [exact H|]. intros t0 s1 E1 H1 Et1. rewrite E1. eapply g_skip; [exact H1|exact Et1|discriminate|]. intros s2 H2.
  eapply (if_stop stop_seq (fun t2 => goto PBlockSequenceEntry ;; ret (empty_scalar (t_end t0))) (fun t2 => push_state PBlockSequenceEntry ;; parse_node true false)); [intros t; unfold stop_seq; destruct (t_data t); reflexivity|].
  apply (g_after (LSeq SkBlock) r true false stop_seq PBlockSequenceEntry s2 _ ms al (fun _ => t_end t0)); auto; try (exact H2 || reflexivity).
  all: try (destruct ac as [| |[]|[]]; cbn in *; auto; try discriminate; match goal with X : _ \/ _ |- _ => destruct X; discriminate end).
  all: intros x; destruct x; cbn; auto; discriminate.
Qed.
Lemma g_ind_seq r p : act_ok ac (LSeq SkInd) -> (ac = NEmpty -> exists x l, rest = x :: l /\ follow (LSeq SkInd) x = true) -> forall first,
  in_doc ds (LSeq SkInd :: r) first (llead (LSeq SkInd) first ++ tk ++ rest) p -> gives (seen d (in_doc ds (push_act ac (LSeq SkInd :: r)) (opens_act ac) rest)) (parse_indentless_sequence_entry p).
Proof.
  intros Hok He first (s & ms & al & H & ->). unfold parse_indentless_sequence_entry. cbn [llead app] in H.
  eapply g_peek; [exact H|]. intros t0 s1 E1 H1 Et1. rewrite E1. eapply g_skip; [exact H1|exact Et1|discriminate|]. intros s2 H2.
  eapply (if_stop stop_ind (fun t2 => goto PIndentlessSequenceEntry ;; ret (empty_scalar (t_end t0))) (fun t2 => push_state PIndentlessSequenceEntry ;; parse_node true false)); [intros t; unfold stop_ind; destruct (t_data t); reflexivity|].
  apply (g_after (LSeq SkInd) r true false stop_ind PIndentlessSequenceEntry s2 _ ms al (fun _ => t_end t0)); auto; try (exact H2 || reflexivity).
  all: try (destruct ac as [| |[]|[]]; cbn in *; auto; try discriminate; match goal with X : _ \/ _ |- _ => destruct X; discriminate end).
  all: intros x; destruct x; cbn; auto; discriminate.
Qed.
Lemma g_block_key (first : bool) r p : act_ok ac (LVal true) -> (ac = NEmpty -> exists x l, rest = x :: l /\ follow (LVal true) x = true) ->
  in_doc ds (LKey true :: r) first (llead (LKey true) first ++ tk ++ rest) p -> gives (seen d (in_doc ds (push_act ac (LVal true :: r)) (opens_act ac) rest)) (parse_block_mapping_key first p).
Proof.
  intros Hok He (s & ms & al & H & ->). unfold parse_block_mapping_key. cbn [llead] in H.
  apply (g_enter first TBlockMappingStart (Base.TKey :: tk ++ rest)); [destruct first; exact H|discriminate|]. clear s ms H. intros s ms H.
  eapply g_peek; [exact H|]. intros t0 s1 E1 H1 Et1. rewrite E1. eapply g_skip; [exact H1|exact Et1|discriminate|]. intros s2 H2.
  eapply (if_stop stop_map (fun t2 => goto PBlockMappingValue ;; ret (empty_scalar (t_end t0))) (fun t2 => push_state PBlockMappingValue ;; parse_node true true)); [intros t; unfold stop_map; destruct (t_data t); reflexivity|].
  apply (g_after (LKey true) r true true stop_map PBlockMappingValue s2 _ ms al (fun _ => t_end t0)); auto; try (exact H2 || reflexivity).
  all: try (destruct ac as [| |[]|[]]; cbn in *; auto; try discriminate; match goal with X : _ \/ _ |- _ => destruct X; discriminate end).
  all: intros x; destruct x; cbn; auto; discriminate.
Qed.
Lemma g_block_val r p : act_ok ac (LKey true) -> (ac = NEmpty -> exists x l, rest = x :: l /\ follow (LKey true) x = true) -> forall first,
  in_doc ds (LVal true :: r) first (llead (LVal true) first ++ tk ++ rest) p -> gives (seen d (in_doc ds (push_act ac (LKey true :: r)) (opens_act ac) rest)) (parse_block_mapping_value p).
Proof.
  intros Hok He first (s & ms & al & H & ->). unfold parse_block_mapping_value. cbn [llead app] in H.
  eapply g_peek; [exact H|]. intros t0 s1 E1 H1 Et1. rewrite E1. eapply g_skip; [exact H1|exact Et1|discriminate|]. intros s2 H2.
  eapply (if_stop stop_map (fun t2 => goto PBlockMappingKey ;; ret (empty_scalar (t_end t0))) (fun t2 => push_state PBlockMappingKey ;; parse_node true true)); [intros t; unfold stop_map; destruct (t_data t); reflexivity|].
  apply (g_after (LVal true) r true true stop_map PBlockMappingKey s2 _ ms al (fun _ => t_end t0)); auto; try (exact H2 || reflexivity).
  all: try (destruct ac as [| |[]|[]]; cbn in *; auto; try discriminate; match goal with X : _ \/ _ |- _ => destruct X; discriminate end).
  all: intros x; destruct x; cbn; auto; discriminate.
Qed.
(** Flow collections hold flow collections, and no empty scalars. *)
Lemma flow_allowed f : blk f = false -> act_ok ac f -> allowed false false ac /\ ~ bare ac tk.
Proof. intros Hf Hok. unfold bare. destruct ac as [| |[]|[]]; cbn in *; try congruence; split; auto; try (intros [D _]; discriminate D). all: destruct Hok; subst f; discriminate Hf. Qed.
Lemma flow_he f : blk f = false -> act_ok ac f -> ac = NEmpty -> exists x l, rest = x :: l /\ follow f x = true.
Proof. intros Hf Hok E. rewrite E in Hok. cbn in Hok. congruence. Qed.
Lemma g_seq_node (first : bool) r p : act_ok ac (LSeq SkFlow) ->
  in_doc ds (LSeq SkFlow :: r) first (llead (LSeq SkFlow) first ++ tk ++ rest) p -> gives (seen d (in_doc ds (push_act ac (LSeq SkFlow :: r)) (opens_act ac) rest)) (parse_flow_sequence_entry first p).
Proof.
  intros Hok (s & ms & al & H & ->). unfold parse_flow_sequence_entry. cbn [llead app] in H. destruct (flow_allowed (LSeq SkFlow) eq_refl Hok) as [Ha Hb]. destruct (node_starts false false _ _ _ _ rest Hd Hb Ha Ho) as (x & l & E & Hx).
  set (L := tk ++ rest) in *.
  apply (g_enter first TFlowSequenceStart (if first then L else TFlowEntry :: L)); [destruct first; exact H|discriminate|]. clear s ms H. intros s ms H.
  assert (F : forall t s', Sc s' L -> t_data t = x -> gives (seen d (in_doc ds (push_act ac (LSeq SkFlow :: r)) (opens_act ac) rest))
    ((match t_data t with
      | Base.TKey => goto PFlowSequenceEntryMappingKey ;; pskip ;; ret (Mk_event (EvMappingStart None None true MapFlow) (t_start t) (t_end t))
      | TFlowSequenceEnd => leave_collection EvSequenceEnd t
      | _ => push_state PFlowSequenceEntry ;; parse_node false false
      end) (Mk_pst s' (stk (LSeq SkFlow :: r)) (top (LSeq SkFlow :: r) first) ms (all_tds ds) al))).
  { intros t s' H' Ed. rewrite Ed.
    assert (G : gives (seen d (in_doc ds (push_act ac (LSeq SkFlow :: r)) (opens_act ac) rest)) ((push_state PFlowSequenceEntry ;; parse_node false false) (Mk_pst s' (stk (LSeq SkFlow :: r)) (top (LSeq SkFlow :: r) first) ms (all_tds ds) al))).
    { apply g_push. apply (g_child (LSeq SkFlow) r (flow_he (LSeq SkFlow) eq_refl Hok) false false s' _ ms al Hb Ha); [discriminate|reflexivity|exact H']. }
    destruct x; try discriminate Hx; exact G. }
  rewrite E in *. destruct first.
  - eapply g_peek; [exact H|]. intros t0 s1 E1 H1 Et1.
    assert (X : match t_data t0 with TFlowSequenceEnd => False | _ => True end) by (rewrite E1; destruct x; try discriminate Hx; exact Logic.I).
    specialize (F t0 s1 H1 E1). destruct (t_data t0) eqn:Q; try contradiction X; cbn [flow_separator]; unfold bind at 1; cbn [ret]; rewrite Q; exact F.
  - eapply g_peek; [exact H|]. intros t0 s1 E1 H1 Et1. rewrite E1. unfold flow_separator. rewrite E1.
    apply g_bind. eapply g_skip; [exact H1|exact Et1|discriminate|]. intros s2 H2.
    eapply g_peek0; [exact H2|]. intros t3 s3 Ed3 H3 Et3. cbv beta. exact (F t3 s3 H3 Ed3).
Qed.
Lemma g_key_node (first : bool) r p : act_ok ac (LVal false) ->
  in_doc ds (LKey false :: r) first (llead (LKey false) first ++ tk ++ rest) p -> gives (seen d (in_doc ds (push_act ac (LVal false :: r)) (opens_act ac) rest)) (parse_flow_mapping_key first p).
Proof.
  intros Hok (s & ms & al & H & ->). unfold parse_flow_mapping_key. cbn [llead app] in H. destruct (flow_allowed (LVal false) eq_refl Hok) as [Ha Hb]. destruct (node_starts false false _ _ _ _ rest Hd Hb Ha Ho) as (x & l & E & Hx).
  set (L := tk ++ rest) in *.
  apply (g_enter first TFlowMappingStart (if first then Base.TKey :: L else TFlowEntry :: Base.TKey :: L)); [destruct first; exact H|discriminate|]. clear s ms H. intros s ms H.
  assert (F : forall t0 s', Sc s' (Base.TKey :: L) -> seen_tok s' t0 -> gives (seen d (in_doc ds (push_act ac (LVal false :: r)) (opens_act ac) rest))
    ((pskip ;;
          t <- ppeek ;;
          match t_data t with
          | TValue | TFlowEntry | TFlowMappingEnd =>
              goto PFlowMappingValue ;; ret (empty_scalar (t_start t))
          | _ => push_state PFlowMappingValue ;; parse_node false false
          end) (Mk_pst s' (stk (LKey false :: r)) (top (LKey false :: r) first) ms (all_tds ds) al))).
  { intros t0 s' H' Et. eapply g_skip; [exact H'|exact Et|discriminate|]. intros s2 H2. rewrite E in H2. eapply g_peek; [exact H2|]. intros t3 s3 E3 H3 Et3.
    assert (G : gives (seen d (in_doc ds (push_act ac (LVal false :: r)) (opens_act ac) rest)) ((push_state PFlowMappingValue ;; parse_node false false) (Mk_pst s3 (stk (LKey false :: r)) (top (LKey false :: r) first) ms (all_tds ds) al))).
    { rewrite <- E in H3. apply g_push. apply (g_child (LKey false) r (flow_he (LVal false) eq_refl Hok) false false s3 _ ms al Hb Ha); [discriminate|reflexivity|exact H3]. }
    rewrite E3. destruct x; try discriminate Hx; exact G. }
  destruct first.
  - eapply g_peek; [exact H|]. intros t0 s1 E1 H1 Et1. rewrite E1. cbn [flow_separator]. unfold bind at 1. cbn [ret]. rewrite E1. exact (F t0 s1 H1 Et1).
  - eapply g_peek; [exact H|]. intros t0 s1 E1 H1 Et1. rewrite E1. unfold flow_separator. rewrite E1.
    apply g_bind. eapply g_skip; [exact H1|exact Et1|discriminate|]. intros s2 H2.
    eapply g_peek0; [exact H2|]. intros t3 s3 Ed3 H3 Et3. cbv beta. rewrite Ed3. exact (F t3 s3 H3 Et3).
Qed.
Lemma g_val_node r p : act_ok ac (LKey false) -> forall first,
  in_doc ds (LVal false :: r) first (llead (LVal false) first ++ tk ++ rest) p -> gives (seen d (in_doc ds (push_act ac (LKey false :: r)) (opens_act ac) rest)) (parse_flow_mapping_value false p).
Proof.
  intros Hok first (s & ms & al & H & ->). unfold parse_flow_mapping_value. cbn [llead app] in H. destruct (flow_allowed (LKey false) eq_refl Hok) as [Ha Hb]. destruct (node_starts false false _ _ _ _ rest Hd Hb Ha Ho) as (x & l & E & Hx).
  eapply g_peek; [exact H|]. intros t0 s1 E1 H1 Et1. rewrite E1. eapply g_skip; [exact H1|exact Et1|discriminate|]. intros s2 H2. rewrite E in H2.
  eapply g_peek; [exact H2|]. intros t3 s3 E3 H3 Et3. rewrite <- E in H3.
  assert (G : gives (seen d (in_doc ds (push_act ac (LKey false :: r)) (opens_act ac) rest)) ((push_state PFlowMappingKey ;; parse_node false false) (Mk_pst s3 (stk (LVal false :: r)) (top (LVal false :: r) first) ms (all_tds ds) al))).
  { apply g_push. apply (g_child (LVal false) r (flow_he (LKey false) eq_refl Hok) false false s3 _ ms al Hb Ha); [discriminate|reflexivity|exact H3]. }
  rewrite E3. destruct x; try discriminate Hx; exact G.
Qed.
Lemma root_allowed : act_ok ac LDone -> allowed true false ac. Proof. destruct ac as [| |[]|[]]; cbn; auto. intros [|]; discriminate. Qed.
Lemma g_root_node p : act_ok ac LDone -> (ac = NEmpty -> exists x l, rest = x :: l /\ follow LDone x = true) -> forall first,
  in_doc ds [LRoot false] first (tk ++ rest) p -> gives (seen d (in_doc ds (push_act ac [LDone]) (opens_act ac) rest)) (parse_document_content p).
Proof.
  intros Hok He first (s & ms & al & H & ->). unfold parse_document_content. destruct (bare_dec ac tk) as [Hb|Hb].
  - destruct (rest_follow (LRoot false) He Hb) as (x & l & E & Hx). rewrite E in H. eapply g_peek; [exact H|]. intros t0 s1 E1 H1 Et1. rewrite E1. rewrite <- E in H1.
    assert (G : gives (seen d (in_doc ds (push_act ac [LDone]) (opens_act ac) rest)) ((pop_state ;; ret (empty_scalar (t_start t0))) (Mk_pst s1 (stk [LRoot false]) (top [LRoot false] first) ms (all_tds ds) al))).
    { apply g_pop, g_ret. apply (g_bare (LRoot false) []); auto. }
    destruct x; try discriminate Hx; exact G.
  - destruct (node_starts true false _ _ _ _ rest Hd Hb (root_allowed Hok) Ho) as (x & l & E & Hx). rewrite E in H. eapply g_peek; [exact H|]. intros t0 s1 E1 H1 Et1. rewrite E1. rewrite <- E in H1.
    assert (G : gives (seen d (in_doc ds (push_act ac [LDone]) (opens_act ac) rest)) (parse_node true false (Mk_pst s1 (stk [LRoot false]) (top [LRoot false] first) ms (all_tds ds) al))).
    { apply (g_child (LRoot false) [] He true false s1 _ ms al Hb (root_allowed Hok)); [discriminate|reflexivity|exact H1]. }
    destruct x; try discriminate Hx; exact G.
Qed.
Lemma g_root_implicit p : act_ok ac LDone -> (ac = NEmpty -> exists x l, rest = x :: l /\ follow LDone x = true) -> ~ bare ac tk -> forall first,
  in_doc ds [LRoot true] first (tk ++ rest) p -> gives (seen d (in_doc ds (push_act ac [LDone]) (opens_act ac) rest)) (parse_node true false p).
Proof.
  intros Hok He Hb first (s & ms & al & H & ->). apply (g_child (LRoot true) [] He true false s _ ms al Hb (root_allowed Hok)); [discriminate|reflexivity|exact H].
Qed.
End node.
(** ** Ends of collections *)
Fixpoint lstack_ok (fs : list lframe) : Prop :=
  match fs with
  | [LRoot _] | [LDone] => True
  | f :: r => match f with
              | LSeq SkInd => exists r', r = LKey true :: r' \/ r = LVal true :: r'
              | LSeq SkBlock | LKey true | LVal true => match r with f :: _ => blk f = true | [] => False end
              | LSeq SkFlow | LKey false | LVal false => True
              | _ => False
              end /\ match r with LRoot _ :: _ => False | _ => True end /\ lstack_ok r
  | [] => False
  end.
Lemma top_ne r : lstack_ok r -> match r with LRoot _ :: _ => False | _ => True end -> map (fun f => pst_of f false) r = top r false :: stk r.
Proof. destruct r as [|[] r]; intros H H2; try contradiction; reflexivity. Qed.
Lemma stack_tail f r : lstack_ok (f :: r) -> is_root f = false -> f <> LDone -> lstack_ok r /\ match r with LRoot _ :: _ => False | _ => True end.
Proof. destruct f; intros H H2 H3; try discriminate H2; try congruence; cbn [lstack_ok] in H; tauto. Qed.
Lemma g_seq_end k (first : bool) r p tke x l : lstack_ok (LSeq k :: r) -> seq_end k first = Some tke -> rest = x :: l -> (k = SkInd -> x <> TBlockEntry) -> in_doc ds (LSeq k :: r) first (tke ++ rest) p ->
  gives (seen EvSequenceEnd (in_doc ds r false rest)) (match k with SkFlow => parse_flow_sequence_entry first p | SkBlock => parse_block_sequence_entry first p | SkInd => parse_indentless_sequence_entry p end).
Proof.
  intros Hk Hs Er Hx (s & ms & al & H & ->). destruct (stack_tail (LSeq k) r Hk eq_refl ltac:(discriminate)) as [Hr1 Hr2]. cbn [stk]. rewrite (top_ne r Hr1 Hr2). destruct k; cbn [seq_end] in Hs.
  - injection Hs as <-. unfold parse_flow_sequence_entry.
    apply (g_enter first TFlowSequenceStart (TFlowSequenceEnd :: rest)); [destruct first; exact H|discriminate|]. clear s ms H. intros s ms H.
    eapply g_peek; [exact H|]. intros t0 s1 E1 H1 Et1. rewrite E1. eapply g_leave; [exact H1|discriminate|exact Et1|]. intros s2 ms2 H2. split; [constructor|]. exists s2, ms2, al. auto.
  - destruct first; [discriminate|]. injection Hs as <-. unfold parse_block_sequence_entry.
    apply (g_enter false TBlockSequenceStart (TBlockEnd :: rest)); [exact H|discriminate|]. clear s ms H. intros s ms H.
    eapply g_peek; [exact H|]. intros t0 s1 E1 H1 Et1. rewrite E1. eapply g_leave; [exact H1|discriminate|exact Et1|]. intros s2 ms2 H2. split; [constructor|]. exists s2, ms2, al. auto.
  - destruct first; [discriminate|]. injection Hs as <-. cbn [app] in H. rewrite Er in H. specialize (Hx eq_refl). unfold parse_indentless_sequence_entry.
    eapply g_peek; [exact H|]. intros t0 s1 E1 H1 Et1. rewrite E1.
    assert (G : gives (seen EvSequenceEnd (in_doc ds r false rest)) ((pop_state ;; ret (Mk_event EvSequenceEnd (t_start t0) (t_end t0))) (Mk_pst s1 (top r false :: stk r) (top (LSeq SkInd :: r) false) ms (all_tds ds) al))).
    { apply g_pop, g_ret. split; [constructor|]. exists s1, ms, al. rewrite Er. auto. }
    destruct x; try congruence; exact G.
Qed.
Lemma g_map_end b (first : bool) r p tke : lstack_ok (LKey b :: r) -> map_end b first = Some tke -> in_doc ds (LKey b :: r) first (tke ++ rest) p ->
  gives (seen EvMappingEnd (in_doc ds r false rest)) (if b then parse_block_mapping_key first p else parse_flow_mapping_key first p).
Proof.
  intros Hk Hs (s & ms & al & H & ->). destruct (stack_tail (LKey b) r Hk eq_refl ltac:(discriminate)) as [Hr1 Hr2]. cbn [stk]. rewrite (top_ne r Hr1 Hr2). destruct b; cbn [map_end] in Hs.
  - destruct first; [discriminate|]. injection Hs as <-. unfold parse_block_mapping_key.
    apply (g_enter false TBlockMappingStart (TBlockEnd :: rest)); [exact H|discriminate|]. clear s ms H. intros s ms H.
    eapply g_peek; [exact H|]. intros t0 s1 E1 H1 Et1. rewrite E1. eapply g_leave; [exact H1|discriminate|exact Et1|]. intros s2 ms2 H2. split; [constructor|]. exists s2, ms2, al. auto.
  - injection Hs as <-. unfold parse_flow_mapping_key.
    apply (g_enter first TFlowMappingStart (TFlowMappingEnd :: rest)); [destruct first; exact H|discriminate|]. clear s ms H. intros s ms H.
    eapply g_peek; [exact H|]. intros t0 s1 E1 H1 Et1. rewrite E1. eapply g_leave; [exact H1|discriminate|exact Et1|]. intros s2 ms2 H2. split; [constructor|]. exists s2, ms2, al. auto.
Qed.
End doc.
(** ** Documents *)
Definition vd_toks (vd : option version_directive) : list token_data := match vd with Some v => [TVersionDirective (vd_major v) (vd_minor v)] | None => [] end.
Definition td_toks (tds : list tag_directive) : list token_data := map (fun t => TTagDirective (td_handle t) (td_prefix t)) tds.
Definition dir_body : option version_directive * list tag_directive -> M pst (option version_directive * list tag_directive + option version_directive * list tag_directive) := fun '(vd, tds) =>
    t <- ppeek ;;
    match t_data t with
    | TVersionDirective major minor =>
        match vd with
        | Some _ => fail (EParser "" mark0 "found duplicate %YAML directive" (t_start t))
        | None =>
            if negb (major =? 1)%Z || negb (minor =? 1)%Z && negb (minor =? 2)%Z then
              fail (EParser "" mark0 "found incompatible YAML document" (t_start t))
            else pskip ;; ret (inl (Some (Mk_vd major minor), tds))
        end
    | TTagDirective handle prefix =>
        on_sc (set_front (TTagDirective [] [])) ;;
        append_tag_directive (Mk_td handle prefix) false (t_start t) ;;
        pskip ;; ret (inl (vd, tds ++ [Mk_td handle prefix]))
    | _ => ret (inr (vd, tds))
    end.
Lemma g_append {A} t b m s sts st ms tds al (k : unit -> M pst A) Q :
  (In (td_handle t) (map td_handle tds) -> b = true /\ gives Q (k tt (Mk_pst s sts st ms tds al))) ->
  (~ In (td_handle t) (map td_handle tds) -> gives Q (k tt (Mk_pst s sts st ms (tds ++ [t]) al))) ->
  gives Q (bind (append_tag_directive t b m) k (Mk_pst s sts st ms tds al)).
Proof.
  intros H1 H2. unfold append_tag_directive. unfold bind at 1. unfold bind at 1. cbn [get tag_directives].
  destruct (existsb (fun u => str_eqb (td_handle t) (td_handle u)) tds) eqn:E.
  - apply existsb_handle in E. destruct (H1 E) as [-> Hq]. exact Hq.
  - apply H2. intros H. apply existsb_handle in H. congruence.
Qed.
Lemma td_eta t : Mk_td (td_handle t) (td_prefix t) = t. Proof. destruct t; reflexivity. Qed.
Definition loop_end (vd : option version_directive) (l : list token_data) sts st ms tds al (r : option version_directive * list tag_directive) (p : pst) : Prop :=
  r = (vd, tds) /\ exists s, Sc s l /\ p = Mk_pst s sts st ms tds al.
Lemma g_tags n : forall l0 l vd done s sts st ms al x, (length l0 < n)%nat -> NoDup (map td_handle (done ++ l0)) -> match x with TVersionDirective _ _ | TTagDirective _ _ => False | _ => True end ->
  Sc s (td_toks l0 ++ x :: l) -> gives (loop_end vd (x :: l) sts st ms (done ++ l0) al) (loopM n dir_body (vd, done) (Mk_pst s sts st ms done al)).
Proof.
  induction n as [|n IH]; intros l0 l vd done s sts st ms al x Hlen Hnd Hx2 H; [lia|]. cbn [loopM].
  destruct l0 as [|t0 l0]; cbn [td_toks map app] in H.
  - apply g_bind. unfold dir_body. eapply g_peek; [exact H|]. intros t s' Ed H' Et. rewrite Ed.
    rewrite app_nil_r. destruct x; try contradiction Hx2; (apply g_ret; apply g_ret; split; [reflexivity|]; exists s'; auto).
  - apply g_bind. unfold dir_body at 1. eapply g_peek; [exact H|]. intros t s1 Ed H1 Et. rewrite Ed.
    destruct Et as [Ea (r & Et)]. destruct (set_front_sc lf T s1 _ _ t r (TTagDirective [] []) H1 Ea Et) as (s2 & E2 & H2 & Et2 & Ea2).
    assert (Es : seen_tok s2 (Mk_token (TTagDirective [] []) (t_start t) (t_end t))) by (split; [congruence|eauto]).
    eapply g_on; [exact E2|]. apply g_append.
    { intros Hin. exfalso. cbn [td_handle] in Hin. rewrite map_app in Hnd. cbn [map] in Hnd. apply NoDup_remove_2 in Hnd. apply Hnd, in_or_app. left. exact Hin. }
    intros _. rewrite td_eta. eapply g_skip; [exact H2|exact Es|discriminate|]. intros s3 H3. apply g_ret.
    replace (done ++ t0 :: l0) with ((done ++ [t0]) ++ l0) in * by (rewrite <- app_assoc; reflexivity). apply IH; [cbn in Hlen; lia|exact Hnd|exact Hx2|exact H3].
Qed.
Lemma g_directives vd tds x l s sts st ms al : all valid_version vd -> NoDup (map td_handle tds) -> match x with TVersionDirective _ _ | TTagDirective _ _ => False | _ => True end ->
  Sc s (vd_toks vd ++ td_toks tds ++ x :: l) -> gives (loop_end vd (x :: l) sts st ms tds al) (directives_loop (Mk_pst s sts st ms [] al)).
Proof.
  intros Hv Hnd Hx2 H. unfold directives_loop. pose proof (sc_budget s _ sts st ms [] al H) as Hb. match goal with |- context [loopM _ ?b] => change b with dir_body end.
  rewrite !app_length in Hb. unfold td_toks in Hb. rewrite map_length in Hb. destruct vd as [v|]; cbn [vd_toks app length] in *.
  - revert Hb. generalize (tok_budget (Mk_pst s sts st ms [] al)). intros [|n] Hb; [lia|]. cbn [loopM]. apply g_bind. unfold dir_body at 1. eapply g_peek; [exact H|]. intros t s1 Ed H1 Et. rewrite Ed.
    destruct v as [ma mi]. destruct Hv as [E1 E2]. cbn [vd_major vd_minor] in *. rewrite E1.
    replace (negb (1 =? 1)%Z || negb (mi =? 1)%Z && negb (mi =? 2)%Z) with false by (destruct E2 as [-> | ->]; reflexivity).
    eapply g_skip; [exact H1|exact Et|discriminate|]. intros s2 H2. apply g_ret. exact (g_tags n tds l _ [] s2 sts st ms al x ltac:(lia) Hnd Hx2 H2).
  - apply (g_tags _ tds l None [] s sts st ms al x); [lia|assumption..].
Qed.
Lemma g_process vd tds x l s sts st ms al : all valid_version vd -> NoDup (map td_handle tds) -> match x with TVersionDirective _ _ | TTagDirective _ _ => False | _ => True end ->
  Sc s (vd_toks vd ++ td_toks tds ++ x :: l) -> gives (fun r p => r = (vd, tds) /\ exists s, Sc s (x :: l) /\ p = Mk_pst s sts st ms (all_tds tds) al) (process_directives (Mk_pst s sts st ms [] al)).
Proof.
  intros Hv Hnd Hx2 H. unfold process_directives. apply g_bind. eapply g_conseq; [apply (g_directives vd tds x l); assumption|].
  intros r p (-> & s1 & H1 & ->). eapply g_peek; [exact H1|]. intros t s2 Ed H2 Et.
  assert (E : all_tds tds = (tds ++ (if existsb (fun u => str_eqb (lit "!") (td_handle u)) tds then [] else [Mk_td (lit "!") (lit "!")])) ++ (if existsb (fun u => str_eqb (lit "!!") (td_handle u)) tds then [] else [Mk_td (lit "!!") (lit "tag:yaml.org,2002:")])).
  { unfold all_tds, default_tag_directives. cbn [filter td_handle]. rewrite <- app_assoc. f_equal.
    destruct (existsb (fun u => str_eqb (lit "!") (td_handle u)) tds), (existsb (fun u => str_eqb (lit "!!") (td_handle u)) tds); reflexivity. }
  assert (F : forall tds1, tds1 = tds ++ (if existsb (fun u => str_eqb (lit "!") (td_handle u)) tds then [] else [Mk_td (lit "!") (lit "!")]) ->
    gives (fun r p => r = (vd, tds) /\ exists s, Sc s (x :: l) /\ p = Mk_pst s sts st ms (all_tds tds) al)
     ((append_tag_directive (Mk_td (lit "!!") (lit "tag:yaml.org,2002:")) true (t_start t) ;; ret (vd, tds)) (Mk_pst s2 sts st ms tds1 al))).
  { intros tds1 E1. assert (E2 : existsb (fun u => str_eqb (lit "!!") (td_handle u)) tds1 = existsb (fun u => str_eqb (lit "!!") (td_handle u)) tds).
    { rewrite E1, existsb_app. destruct (existsb (fun u => str_eqb (lit "!") (td_handle u)) tds); cbn [existsb]; rewrite ?orb_false_r; reflexivity. }
    rewrite <- E1, <- E2 in E. apply g_append; cbn [td_handle]; intros Hi.
    - split; [reflexivity|]. apply g_ret. split; [reflexivity|]. exists s2. split; [exact H2|].
      assert (Eb : existsb (fun u => str_eqb (lit "!!") (td_handle u)) tds1 = true) by (apply (proj2 (existsb_handle (Mk_td (lit "!!") []) tds1)); exact Hi). rewrite Eb, app_nil_r in E. rewrite E. reflexivity.
    - apply g_ret. split; [reflexivity|]. exists s2. split; [exact H2|].
      assert (Eb : existsb (fun u => str_eqb (lit "!!") (td_handle u)) tds1 = false) by (apply not_true_iff_false; intros Eb; apply Hi; apply (proj1 (existsb_handle (Mk_td (lit "!!") []) tds1)); exact Eb). rewrite Eb in E. rewrite E. reflexivity. }
  apply g_append; cbn [td_handle]; intros Hi.
  - split; [reflexivity|]. apply F.
    assert (Eb : existsb (fun u => str_eqb (lit "!") (td_handle u)) tds = true) by (apply (proj2 (existsb_handle (Mk_td (lit "!") []) tds)); exact Hi). rewrite Eb, app_nil_r. reflexivity.
  - apply F.
    assert (Eb : existsb (fun u => str_eqb (lit "!") (td_handle u)) tds = false) by (apply not_true_iff_false; intros Eb; apply Hi; apply (proj1 (existsb_handle (Mk_td (lit "!") []) tds)); exact Eb). rewrite Eb. reflexivity.
Qed.
Definition at_docs (fst : bool) (rest : list token_data) (p : pst) : Prop :=
  exists s ms al, Sc s rest /\ p = Mk_pst s [] (if fst then PImplicitDocumentStart else PDocumentStart) ms [] al.
Lemma g_no_ends {A} x l s sts st ms tds al (k : unit -> M pst A) Q : Sc s (x :: l) -> x <> TDocumentEnd -> (forall s', Sc s' (x :: l) -> gives Q (k tt (Mk_pst s' sts st ms tds al))) ->
  gives Q (bind skip_document_ends k (Mk_pst s sts st ms tds al)).
Proof.
  intros H Hx Hk. apply g_bind. unfold skip_document_ends. pose proof (sc_budget s _ sts st ms tds al H) as Hb. revert Hb. generalize (tok_budget (Mk_pst s sts st ms tds al)). intros [|n] Hb; [lia|].
  cbn [loopM]. apply g_bind. eapply g_peek; [exact H|]. intros t s' Ed H' Et. rewrite Ed. destruct x; try congruence; (apply g_ret; apply g_ret; apply Hk, H').
Qed.
Definition doc_rest (fst : bool) : M pst event :=
  t <- ppeek ;;
  if fst && negb (is_directive_or_boundary (t_data t)) then
    process_directives ;;
    push_state PDocumentEnd ;; goto PBlockNode ;;
    ret (Mk_event (EvDocumentStart None [] true) (t_start t) (t_end t))
  else if negb (is_stream_end t) then
    '(vd, tds) <- process_directives ;;
    t' <- ppeek ;;
    match t_data t' with
    | TDocumentStart =>
        push_state PDocumentEnd ;; goto PDocumentContent ;; pskip ;;
        ret (Mk_event (EvDocumentStart vd tds false) (t_start t) (t_end t'))
    | _ => fail (EParser "" mark0 "did not find expected <document start>" (t_start t'))
    end
  else
    goto PEnd ;; pskip ;;
    ret (Mk_event EvStreamEnd (t_start t) (t_end t)).
Lemma g_doc_start fst vd tds imp rest p : all valid_version vd -> NoDup (map td_handle tds) -> at_docs fst (directive_toks vd tds ++ TDocumentStart :: rest) p ->
  gives (seen (EvDocumentStart vd tds imp) (in_doc tds [LRoot false] false rest)) (parse_document_start fst p).
Proof.
  intros Hv Hnd (s & ms & al & H & ->). change (directive_toks vd tds) with (vd_toks vd ++ td_toks tds) in H. rewrite <- app_assoc in H. set (st := if fst then _ else _).
  assert (Hd : exists x l, vd_toks vd ++ td_toks tds ++ TDocumentStart :: rest = x :: l /\ is_directive_or_boundary x = true /\ x <> TStreamEnd).
  { destruct vd as [v|]; [eexists _, _; split; [reflexivity|split; [reflexivity|discriminate]]|]. destruct tds as [|t tds]; eexists _, _; (split; [reflexivity|split; [reflexivity|discriminate]]). }
  destruct Hd as (x & l & E & Hx & Hx2). unfold parse_document_start. fold (doc_rest fst).
  assert (F : forall s, Sc s (vd_toks vd ++ td_toks tds ++ TDocumentStart :: rest) -> gives (seen (EvDocumentStart vd tds imp) (in_doc tds [LRoot false] false rest)) (doc_rest fst (Mk_pst s [] st ms [] al))).
  { clear s H. intros s H. unfold doc_rest. rewrite E in H. eapply g_peek; [exact H|]. intros t0 s1 E1 H1 Et1. rewrite E1, Hx, andb_false_r.
    assert (is_stream_end t0 = false) as -> by (unfold is_stream_end; rewrite E1; destruct x; congruence). cbn [negb]. rewrite <- E in H1.
    apply g_bind. eapply g_conseq; [apply (g_process vd tds TDocumentStart rest); [exact Hv|exact Hnd|exact Logic.I|exact H1]|]. intros r p (-> & s2 & H2 & ->).
    eapply g_peek; [exact H2|]. intros t3 s3 E3 H3 Et3. rewrite E3. apply g_push, g_goto. eapply g_skip; [exact H3|exact Et3|discriminate|]. intros s4 H4. apply g_ret.
    split; [constructor|]. exists s4, ms, al. auto. }
  destruct fst.
  - apply F, H.
  - rewrite E in H. eapply g_no_ends; [exact H|intros ->; discriminate Hx|]. intros s' H'. rewrite <- E in H'. apply F, H'.
Qed.
Lemma g_doc_implicit imp rest x l p : rest = x :: l -> starts false x = true -> at_docs true rest p ->
  gives (seen (EvDocumentStart None [] imp) (in_doc [] [LRoot true] false rest)) (parse_document_start true p).
Proof.
  intros E Hx (s & ms & al & H & ->). unfold parse_document_start. rewrite E in H. unfold bind at 1. cbn [ret]. eapply g_peek; [exact H|]. intros t0 s1 E1 H1 Et1.
  assert (true && negb (is_directive_or_boundary (t_data t0)) = true) as -> by (rewrite E1; destruct x; try discriminate Hx; reflexivity).
  apply g_bind. eapply g_conseq; [apply (g_process None [] x l); [exact Logic.I|constructor|destruct x; try discriminate Hx; exact Logic.I|exact H1]|]. intros r p (-> & s2 & H2 & ->).
  apply g_push, g_goto, g_ret. split; [constructor|]. exists s2, ms, al. rewrite E. auto.
Qed.
Definition finished (p : pst) : Prop := stream_end_produced (sc p) = true.
Lemma g_stream_end fst p : at_docs fst [TStreamEnd] p -> gives (seen EvStreamEnd finished) (parse_document_start fst p).
Proof.
  intros (s & ms & al & H & ->). set (st := if fst then _ else _). unfold parse_document_start. fold (doc_rest fst).
  assert (F : forall s, Sc s [TStreamEnd] -> gives (seen EvStreamEnd finished) (doc_rest fst (Mk_pst s [] st ms [] al))).
  { clear s H. intros s H. unfold doc_rest. eapply g_peek; [exact H|]. intros t0 s1 E1 H1 Et1. rewrite E1. cbn [is_directive_or_boundary negb]. rewrite andb_false_r.
    assert (is_stream_end t0 = true) as -> by (unfold is_stream_end; rewrite E1; reflexivity). cbn [negb]. apply g_goto.
    destruct (skip_sc lf T s1 _ _ H1 (proj1 Et1)) as (s2 & E2 & E3 & _). eapply g_on; [exact E2|]. apply g_ret. split; [constructor|exact E3]. }
  destruct fst.
  - apply F, H.
  - eapply g_no_ends; [exact H|discriminate|]. intros s' H'. apply F, H'.
Qed.
Lemma g_doc_end ds (b : bool) first imp x l p : in_doc ds [LDone] first (if b then x :: l else TDocumentEnd :: x :: l) p -> (b = true -> x <> TDocumentEnd) ->
  gives (seen (EvDocumentEnd imp) (at_docs false (x :: l))) (parse_document_end p).
Proof.
  intros (s & ms & al & H & ->) Hx. unfold parse_document_end. destruct b.
  - eapply g_peek; [exact H|]. intros t0 s1 E1 H1 Et1. rewrite E1. apply g_bind.
    assert (G : forall Q : mark * bool -> pst -> Prop, Q (t_start t0, true) (Mk_pst s1 (stk [LDone]) (top [LDone] first) ms (all_tds ds) al) ->
      gives Q (match x with TDocumentEnd => pskip ;; ret (t_end t0, false) | _ => ret (t_start t0, true) end (Mk_pst s1 (stk [LDone]) (top [LDone] first) ms (all_tds ds) al))).
    { intros Q HQ. specialize (Hx eq_refl). destruct x; try congruence; apply g_ret, HQ. }
    apply G. unfold bind. cbn [modify]. apply g_ret. split; [constructor|]. exists s1, ms, al. auto.
  - eapply g_peek; [exact H|]. intros t0 s1 E1 H1 Et1. rewrite E1. apply g_bind. eapply g_skip; [exact H1|exact Et1|discriminate|]. intros s2 H2. apply g_ret.
    unfold bind. cbn [modify]. apply g_ret. split; [constructor|]. exists s2, ms, al. auto.
Qed.
(** ** The whole stream *)
Lemma all_tds_nodup ds : NoDup (map td_handle ds) -> NoDup (map td_handle (all_tds ds)).
Proof.
  intros H. unfold all_tds, default_tag_directives. cbn [filter td_handle].
  assert (A : forall h, existsb (fun u => str_eqb h (td_handle u)) ds = false -> ~ In h (map td_handle ds)).
  { intros h E Hi. apply in_map_iff in Hi. destruct Hi as (u & <- & Hu). apply not_true_iff_false in E. apply E. apply existsb_exists. exists u. split; [exact Hu|]. apply str_eqb_eq. reflexivity. }
  assert (S1 : forall h p l, NoDup (map td_handle l) -> ~ In h (map td_handle l) -> NoDup (map td_handle (l ++ [Mk_td h p]))).
  { intros h p l Hl Hi. rewrite map_app. cbn [map td_handle]. apply (Permutation_NoDup (l := h :: map td_handle l)); [apply Permutation_cons_append|]. constructor; assumption. }
  destruct (existsb (fun u => str_eqb (lit "!") (td_handle u)) ds) eqn:E1, (existsb (fun u => str_eqb (lit "!!") (td_handle u)) ds) eqn:E2; cbn [negb].
  - rewrite app_nil_r. exact H.
  - apply S1; [exact H|apply A, E2].
  - apply S1; [exact H|apply A, E1].
  - change [Mk_td (lit "!") (lit "!"); Mk_td (lit "!!") (lit "tag:yaml.org,2002:")] with ([Mk_td (lit "!") (lit "!")] ++ [Mk_td (lit "!!") (lit "tag:yaml.org,2002:")]). rewrite app_assoc.
    apply S1; [apply S1; [exact H|apply A, E1]|]. rewrite map_app, in_app_iff. intros [Hi|[Hi|[]]]; [exact (A _ E2 Hi)|discriminate Hi].
Qed.
Lemma all_handles tds : Forall valid_directive tds -> forall td, In td (all_tds tds) -> valid_handle (td_handle td).
Proof.
  intros Hv td H. unfold all_tds in H. apply in_app_or in H. destruct H as [H|H]; [rewrite Forall_forall in Hv; apply Hv, H|].
  apply filter_In in H. destruct H as [[<-|[<-|[]]] _]; [left; reflexivity|]. right. exists []. split; [reflexivity|constructor].
Qed.
Lemma open_tok ds ac fs oe l tk st' : opens_act ac = true -> lcrun (LT (LDoc ds (push_act ac fs)) (opens_act ac) oe) l tk st' -> lg st' = LEndS -> exists r, tk = first_tok ac :: r.
Proof.
  intros Ho H Hg. rewrite Ho in H. inversion H as [|? d1 t1 st1 l1 t1' ? Hs Hr]; subst; [discriminate Hg|].
  destruct ac as [| |k|b]; try discriminate Ho; cbn [push_act] in *.
  - inversion Hs; subst; [destruct k; eexists; reflexivity|]. match goal with X : seq_end _ _ = Some _ |- _ => destruct k; try discriminate X; injection X as <- end. eexists. reflexivity.
  - inversion Hs; subst; [destruct b; eexists; reflexivity|]. match goal with X : map_end _ _ = Some _ |- _ => destruct b; try discriminate X; injection X as <- end. eexists. reflexivity.
Qed.
Lemma follow_key ds r oe l tk st' : lcrun (LT (LDoc ds (LKey true :: r)) false oe) l tk st' -> lg st' = LEndS -> exists x l', tk ++ [TStreamEnd] = x :: l' /\ follow (LKey true) x = true.
Proof.
  intros H Hg. inversion H as [|? d1 t1 st1 l1 t1' ? Hs Hr]; subst; [discriminate Hg|]. inversion Hs; subst; [eexists _, _; split; reflexivity|].
  match goal with X : map_end _ _ = Some _ |- _ => injection X as <- end. eexists _, _. split; reflexivity.
Qed.
Lemma follow_val ds r oe l tk st' : lcrun (LT (LDoc ds (LVal true :: r)) false oe) l tk st' -> lg st' = LEndS -> exists x l', tk ++ [TStreamEnd] = x :: l' /\ follow (LVal true) x = true.
Proof. intros H Hg. inversion H as [|? d1 t1 st1 l1 t1' ? Hs Hr]; subst; [discriminate Hg|]. inversion Hs; subst. eexists _, _. split; reflexivity. Qed.
Lemma docs_next oe l tk st' first : lcrun (LT (LDocs first) false oe) l tk st' -> first = false -> lg st' = LEndS -> exists x l', tk ++ [TStreamEnd] = x :: l' /\ follow LDone x = true.
Proof.
  intros H Hf Hg. inversion H as [|? d1 t1 st1 l1 t1' ? Hs Hr]; subst; [discriminate Hg|]. inversion Hs; subst.
  - destruct (oe && _); [eexists _, _; split; reflexivity|]. unfold directive_toks. destruct vd as [v|]; [eexists _, _; split; reflexivity|]. destruct tds; eexists _, _; split; reflexivity.
  - inversion Hr as [|? d2 t2 st3 l2 t2' ? Hs2 Hr2]; subst; [|inversion Hs2]. destruct (oe && b); eexists _, _; split; reflexivity.
Qed.
Lemma follow_tok ds f r oe l tk st' : lcrun (LT (LDoc ds (f :: r)) false oe) l tk st' -> lg st' = LEndS -> lstack_ok (f :: r) -> blk f = true -> is_root f = false -> exists x l', tk ++ [TStreamEnd] = x :: l' /\ follow f x = true.
Proof.
  intros H Hg Hk Hb Hf. destruct f as [|  |k|b|b]; try discriminate Hf.
  - inversion H as [|? d1 t1 st1 l1 t1' ? Hs Hr]; subst; [discriminate Hg|]. inversion Hs; subst; try congruence. destruct imp; [|eexists _, _; split; reflexivity]. exact (docs_next _ _ _ _ _ Hr eq_refl Hg).
  - inversion H as [|? d1 t1 st1 l1 t1' ? Hs Hr]; subst; [discriminate Hg|]. inversion Hs; subst; [destruct k; try discriminate Hb; eexists _, _; split; reflexivity|].
    match goal with X : seq_end _ _ = Some _ |- _ => destruct k; try discriminate Hb; injection X as <- end; [eexists _, _; split; reflexivity|].
    cbn [lstack_ok] in Hk. destruct Hk as ((r' & Er') & _). assert (X : exists x l', t1' ++ [TStreamEnd] = x :: l' /\ (follow (LKey true) x = true \/ follow (LVal true) x = true)).
    { destruct Er' as [-> | ->]; [destruct (follow_key _ _ _ _ _ _ Hr Hg) as (x & l' & E & Hx); eauto|destruct (follow_val _ _ _ _ _ _ Hr Hg) as (x & l' & E & Hx); eauto]. }
    destruct X as (x & l' & E & Hx). exists x, l'. split; [exact E|]. destruct Hx as [Hx|Hx]; destruct x; try discriminate Hx; reflexivity.
  - destruct b; [|discriminate Hb]. exact (follow_key _ _ _ _ _ _ H Hg).
  - destruct b; [|discriminate Hb]. inversion H as [|? d1 t1 st1 l1 t1' ? Hs Hr]; subst; [discriminate Hg|]. inversion Hs; subst. eexists _, _. split; reflexivity.
Qed.
Lemma reopen l tk st' : lcrun (LT (LDocs false) false true) l tk st' -> lg st' = LEndS ->
  exists (b : bool) tk' x r, tk' ++ [TStreamEnd] = x :: r /\ lcrun (LT (LDocs false) false false) l tk' st' /\ tk = (if b then [] else [TDocumentEnd]) ++ tk' /\ x <> TDocumentEnd.
Proof.
  intros H Hg. inversion H as [|? d1 t1 st1 l1 t1' ? Hs Hr]; subst; [discriminate Hg|]. inversion Hs; subst.
  - pose proof (LR_cons _ _ _ _ _ _ _ (L_doc false false false vd tds imp) Hr) as HR. cbn [andb app] in HR.
    assert (X : exists x r, ((directive_toks vd tds ++ [TDocumentStart]) ++ t1') ++ [TStreamEnd] = x :: r /\ x <> TDocumentEnd).
    { unfold directive_toks. destruct vd; [eexists _, _; split; [reflexivity|discriminate]|]. destruct tds; eexists _, _; (split; [reflexivity|discriminate]). }
    destruct X as (x & r & E1 & E2). exists (negb (has_directives vd tds)), ((directive_toks vd tds ++ [TDocumentStart]) ++ t1'), x, r. split; [exact E1|]. split; [exact HR|]. split; [|exact E2].
    cbn [andb]. rewrite <- app_assoc. destruct (has_directives vd tds); reflexivity.
  - inversion Hr as [|? d2 t2 st2 l2 t2' ? Hs2 Hr2]; subst; [|inversion Hs2]. exists (negb b), [], TStreamEnd, []. split; [reflexivity|]. split; [|split; [destruct b; reflexivity|discriminate]].
    exact (LR_cons _ _ _ _ _ _ _ (L_stream_end false false false b) Hr).
Qed.
Definition at_state (st : lst) (rest : list token_data) (p : pst) : Prop :=
  match lg st with
  | LDocs fst => at_docs fst rest p
  | LDoc ds fs => in_doc ds fs (lfirst st) rest p /\ Forall valid_directive ds /\ NoDup (map td_handle ds) /\ lstack_ok fs
  | LEndS => finished p
  end.
Lemma Sc_going s l : Sc s l -> stream_end_produced s = false. Proof. intros (_ & H & _). exact H. Qed.
Lemma next_of p m Q : state_machine p = m p -> at_end p = false -> gives Q (m p) -> exists e p', parser_next p = (Ok (Some e), p') /\ Q e p'.
Proof.
  intros E Ha (e & p' & H & HQ). exists e, p'. split; [|exact HQ]. unfold parser_next. unfold bind at 1. cbn [get]. rewrite Ha. unfold bind at 1. unfold parse. unfold bind at 1. cbn [get]. rewrite Ha, E, H. reflexivity.
Qed.
Definition ev_ok (d : event_data) : Prop := valid_directives d /\ tag_ne d.
Definition machine (f : lframe) (first : bool) : M pst event :=
  match f with
  | LRoot true => parse_node true false | LRoot false => parse_document_content | LDone => parse_document_end
  | LSeq SkFlow => parse_flow_sequence_entry first | LSeq SkBlock => parse_block_sequence_entry first | LSeq SkInd => parse_indentless_sequence_entry
  | LKey true => parse_block_mapping_key first | LKey false => parse_flow_mapping_key first
  | LVal true => parse_block_mapping_value | LVal false => parse_flow_mapping_value false
  end.
Lemma machine_is ds f r first rest p : in_doc ds (f :: r) first rest p -> state_machine p = machine f first p /\ at_end p = false.
Proof.
  intros (s & ms & al & H & ->). split; [destruct f as [[]| |[]|[]|[]]; destruct first; reflexivity|]. unfold at_end. cbn [sc state]. rewrite (Sc_going _ _ H). destruct f as [[]| |[]|[]|[]]; destruct first; reflexivity.
Qed.
Lemma next_stack f r ac : lstack_ok (f :: r) -> f <> LDone -> act_ok ac (next_frame f) -> lstack_ok (push_act ac (next_frame f :: r)).
Proof.
  intros Hk Hf Ha. assert (H1 : lstack_ok (next_frame f :: r)).
  { destruct f as [| |k|b|b]; cbn [next_frame]; try congruence; exact Hk. }
  assert (H2 : match next_frame f :: r with LRoot _ :: _ => False | _ => True end) by (destruct f; exact Logic.I).
  destruct ac as [| |k|b]; cbn [push_act]; try exact H1; (split; [|split; [exact H2|exact H1]]).
  - destruct k; cbn [act_ok] in Ha; [exact Logic.I|exact Ha|destruct Ha as [-> | ->]; eauto].
  - destruct b; cbn [act_ok] in Ha; [exact Ha|exact Logic.I].
Qed.
Lemma next_root f : is_root (next_frame f) = false. Proof. destruct f; reflexivity. Qed.
(** One call. *)
Lemma one_call st d tk st1 l t' st2 p : lcstep st d tk st1 -> lcrun st1 l t' st2 -> lg st2 = LEndS -> lopen st = false -> ev_ok d -> at_state st (tk ++ t' ++ [TStreamEnd]) p ->
  exists e p' st1' t1', parser_next p = (Ok (Some e), p') /\ told d (e_data e) /\ lcrun st1' l t1' st2 /\ lopen st1' = false /\ at_state st1' (t1' ++ [TStreamEnd]) p'.
Proof.
  intros Hs Hr Hg Ho [Hvd Htn] Hp. destruct Hs as [fst f oe vd tds imp|f imp|f oe ds imp|fst f oe b0|ds f r first oe d tk ac Hf Ht Hac Hsh|ds k r first oe tk Hs|ds b r first oe tk Hs]; cbn [lopen] in Ho; try subst oe; unfold at_state in Hp; cbn [lg lfirst] in Hp.
  - (* document start *)
    cbn [andb app] in Hp. rewrite <- app_assoc in Hp. destruct Hvd as (V1 & V2 & V3).
    destruct (next_of p (parse_document_start fst) (seen (EvDocumentStart vd tds imp) (in_doc tds [LRoot false] false (t' ++ [TStreamEnd])))) as (e & p' & E & E1 & HQ).
    + destruct Hp as (s & ms & al & H & ->). destruct fst; reflexivity.
    + destruct Hp as (s & ms & al & H & ->). unfold at_end. cbn [sc state]. rewrite (Sc_going _ _ H). destruct fst; reflexivity.
    + apply g_doc_start; [exact V1|exact V3|exact Hp].
    + exists e, p', (LT (LDoc tds [LRoot false]) false false), t'. split; [exact E|]. split; [exact E1|]. split; [exact Hr|]. split; [reflexivity|].
      split; [exact HQ|]. split; [exact V2|]. split; [exact V3|exact Logic.I].
  - (* implicit document start *)
    cbn [app] in Hp.
    assert (X : exists x r, t' ++ [TStreamEnd] = x :: r /\ starts false x = true).
    { inversion Hr as [|? d1 t1 st1 l1 t1' ? Hs Hr1]; subst; [discriminate Hg|]. inversion Hs; subst. match goal with X : lnode _ _ _ _ |- _ => rename X into Hn end. match goal with X : shows _ _ _ |- _ => rename X into Hsh end. match goal with X : act_ok _ _ |- _ => rename X into Hac end.
      cbn [llead app]. rewrite <- app_assoc. apply (node_starts true false _ _ _ _ _ Hn).
      - intros [B1 B2]. exact (Hsh B1 B2).
      - clear -Hac; destruct a as [| |[]|[]]; cbn in Hac |- *; auto; try discriminate; destruct Hac; discriminate.
      - intros Hop. destruct (open_tok _ _ _ _ _ _ _ Hop Hr1 Hg) as (r & ->). eexists. reflexivity. }
    destruct X as (x & r & E0 & Hx).
    destruct (next_of p (parse_document_start true) (seen (EvDocumentStart None [] imp) (in_doc [] [LRoot true] false (t' ++ [TStreamEnd])))) as (e & p' & E & E1 & HQ).
    + destruct Hp as (s & ms & al & H & ->). reflexivity.
    + destruct Hp as (s & ms & al & H & ->). unfold at_end. cbn [sc state]. rewrite (Sc_going _ _ H). reflexivity.
    + eapply g_doc_implicit; [exact E0|exact Hx|exact Hp].
    + exists e, p', (LT (LDoc [] [LRoot true]) false false), t'. split; [exact E|]. split; [exact E1|]. split; [exact Hr|]. split; [reflexivity|].
      split; [exact HQ|]. split; [constructor|]. split; [constructor|exact Logic.I].
  - (* document end *)
    destruct Hp as (Hp & V2 & V3 & Hk).
    assert (N : exists (b : bool) tk' x r, lcrun (LT (LDocs false) false false) l tk' st2 /\ tk' ++ [TStreamEnd] = x :: r /\ (b = true -> x <> TDocumentEnd) /\
       (if imp then [] else [TDocumentEnd]) ++ t' ++ [TStreamEnd] = if b then x :: r else TDocumentEnd :: x :: r).
    { destruct imp.
      - destruct (reopen l t' st2 Hr Hg) as (b & tk' & x & r & E1 & R1 & E2 & Hx). exists b, tk', x, r. split; [exact R1|]. split; [exact E1|]. split; [auto|].
        rewrite E2. destruct b; cbn [app]; rewrite E1; reflexivity.
      - destruct (t' ++ [TStreamEnd]) as [|x r] eqn:E; [destruct t'; discriminate E|]. exists false, t', x, r. split; [exact Hr|]. split; [exact E|]. split; [discriminate|]. cbn [app]. rewrite ?E. reflexivity. }
    destruct N as (b & tk' & x & r & R1 & E1 & Hx & E2). rewrite E2 in Hp. destruct (machine_is _ _ _ _ _ _ Hp) as [M1 M2].
    destruct (next_of p parse_document_end (seen (EvDocumentEnd imp) (at_docs false (x :: r))) M1 M2) as (e & p' & E & E3 & HQ).
    + eapply g_doc_end; [exact Hp|exact Hx].
    + exists e, p', (LT (LDocs false) false false), tk'. split; [exact E|]. split; [exact E3|]. split; [exact R1|]. split; [reflexivity|]. rewrite E1. exact HQ.
  - (* stream end *)
    inversion Hr as [|? d2 t2 st3 l2 t2' ? Hs2 Hr2]; subst; [|inversion Hs2]. cbn [app] in Hp.
    destruct (next_of p (parse_document_start fst) (seen EvStreamEnd finished)) as (e & p' & E & E3 & HQ).
    + destruct Hp as (s & ms & al & H & ->). destruct fst; reflexivity.
    + destruct Hp as (s & ms & al & H & ->). unfold at_end. cbn [sc state]. rewrite (Sc_going _ _ H). destruct fst; reflexivity.
    + apply g_stream_end, Hp.
    + exists e, p', (LT LEndS false false), []. split; [exact E|]. split; [exact E3|]. split; [exact Hr|]. split; [reflexivity|]. exact HQ.
  - (* node *)
    destruct Hp as (Hp & V2 & V3 & Hk). pose proof (all_tds_nodup ds V3) as Hnd. pose proof (all_handles ds V2) as Hh. rewrite <- app_assoc in Hp.
    pose proof (next_stack f r ac Hk Hf Hac) as Hk2.
    assert (Hop : opens_act ac = true -> exists r, t' ++ [TStreamEnd] = first_tok ac :: r).
    { intros Hop. destruct (open_tok _ _ _ _ _ _ _ Hop Hr Hg) as (r0 & ->). eexists. reflexivity. }
    assert (He : ac = NEmpty -> exists x l', t' ++ [TStreamEnd] = x :: l' /\ follow (next_frame f) x = true).
    { intros Eac. rewrite Eac in *. cbn [push_act opens_act] in *. exact (follow_tok _ _ _ _ _ _ _ Hr Hg Hk2 Hac (next_root f)). }
    destruct (machine_is _ _ _ _ _ _ Hp) as [M1 M2].
    destruct (next_of p (machine f first) (seen d (in_doc ds (push_act ac (next_frame f :: r)) (opens_act ac) (t' ++ [TStreamEnd]))) M1 M2) as (e & p' & E & E3 & HQ).
    + destruct f as [[]| |[]|[]|[]]; cbn [machine next_frame] in *; try congruence.
      * destruct r; [|contradiction (proj1 Hk)]. eapply g_root_implicit; eauto. intros [B1 B2]. exact (Hsh B1 B2).
      * destruct r; [|contradiction (proj1 Hk)]. eapply g_root_node; eauto.
      * eapply g_seq_node; eauto.
      * eapply g_block_seq; eauto.
      * eapply g_ind_seq; eauto.
      * eapply g_block_key; eauto.
      * eapply g_key_node; eauto.
      * eapply g_block_val; eauto.
      * eapply g_val_node; eauto.
    + exists e, p', (LT (LDoc ds (push_act ac (next_frame f :: r))) (opens_act ac) false), t'. split; [exact E|]. split; [exact E3|].
      split; [exact Hr|]. split; [reflexivity|]. split; [exact HQ|]. split; [exact V2|]. split; [exact V3|exact Hk2].
  - (* end of a sequence *)
    destruct Hp as (Hp & V2 & V3 & Hk). destruct (machine_is _ _ _ _ _ _ Hp) as [M1 M2]. destruct (stack_tail (LSeq k) r Hk eq_refl ltac:(discriminate)) as [Hk2 _].
    assert (X : exists x l0, t' ++ [TStreamEnd] = x :: l0 /\ (k = SkInd -> x <> TBlockEntry)).
    { destruct k; [destruct (t' ++ [TStreamEnd]) as [|x l0] eqn:E; [destruct t'; discriminate E|]; exists x, l0; split; [reflexivity|discriminate]..|].
      cbn [lstack_ok] in Hk. destruct Hk as ((r' & Er') & _). assert (X : exists x l', t' ++ [TStreamEnd] = x :: l' /\ (follow (LKey true) x = true \/ follow (LVal true) x = true)).
      { destruct Er' as [-> | ->]; [destruct (follow_key _ _ _ _ _ _ Hr Hg) as (x & l' & E & Hx); eauto|destruct (follow_val _ _ _ _ _ _ Hr Hg) as (x & l' & E & Hx); eauto]. }
      destruct X as (x & l' & E & Hx). exists x, l'. split; [exact E|]. intros _ ->. destruct Hx as [Hx|Hx]; discriminate Hx. }
    destruct X as (x & l0 & Ex & Hx).
    destruct (next_of p (machine (LSeq k) first) (seen EvSequenceEnd (in_doc ds r false (t' ++ [TStreamEnd]))) M1 M2) as (e & p' & E & E3 & HQ).
    + pose proof (g_seq_end ds _ k first r p tk x l0 Hk Hs Ex Hx Hp) as G. destruct k; exact G.
    + exists e, p', (LT (LDoc ds r) false false), t'. split; [exact E|]. split; [exact E3|]. split; [exact Hr|]. split; [reflexivity|].
      split; [exact HQ|]. split; [exact V2|]. split; [exact V3|exact Hk2].
  - destruct Hp as (Hp & V2 & V3 & Hk). destruct (machine_is _ _ _ _ _ _ Hp) as [M1 M2]. destruct (stack_tail (LKey b) r Hk eq_refl ltac:(discriminate)) as [Hk2 _].
    destruct (next_of p (machine (LKey b) first) (seen EvMappingEnd (in_doc ds r false (t' ++ [TStreamEnd]))) M1 M2) as (e & p' & E & E3 & HQ).
    + pose proof (g_map_end ds _ b first r p tk Hk Hs Hp) as G. destruct b; exact G.
    + exists e, p', (LT (LDoc ds r) false false), t'. split; [exact E|]. split; [exact E3|]. split; [exact Hr|]. split; [reflexivity|].
      split; [exact HQ|]. split; [exact V2|]. split; [exact V3|exact Hk2].
Qed.
Lemma all_calls l : forall st tk st2 p, lcrun st l tk st2 -> lg st2 = LEndS -> lopen st = false -> Forall ev_ok l -> at_state st (tk ++ [TStreamEnd]) p ->
  exists es p', calls parser_next (length l) p = (map (fun e => Ok (Some e)) es, p') /\ Forall2 told l (map e_data es) /\ finished p'.
Proof.
  induction l as [|d l IH]; intros st tk st2 p Hr Hg Ho Hv Hp.
  - inversion Hr; subst. exists [], p. split; [reflexivity|]. split; [constructor|]. unfold at_state in Hp. rewrite Hg in Hp. exact Hp.
  - inversion Hr as [|? ? t1 st1 ? t1' ? Hs Hr1]; subst. rewrite <- app_assoc in Hp.
    destruct (one_call st d t1 st1 l t1' st2 p Hs Hr1 Hg Ho (Forall_inv Hv) Hp) as (e & p' & st1' & tk1 & E & Er & R1 & O1 & P1).
    destruct (IH st1' tk1 st2 p' R1 Hg O1 (Forall_inv_tail Hv) P1) as (es & p2 & E2 & Er2 & F2).
    exists (e :: es), p2. cbn [length calls map]. rewrite E, E2. split; [reflexivity|]. split; [constructor; assumption|exact F2].
Qed.
End parse.
