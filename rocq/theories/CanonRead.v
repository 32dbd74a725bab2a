(** CanonRead.v -- reading a canonical text, from a buffer that holds all of it and from any source. *)
From Coq Require Import Lia ZifyBool ZifyNat ZifyN Bool.
From Verif Require Import Base Utf Chars State Reader Scanner Parser Wp ScanFacts RoundScan EState Emitter Document Api Spec_Tokens Spec_Scanner Spec_Reader Spec_Parser Utf8Facts ReaderFacts ReadFacts Prop_Reader Prop_Parser Chunk ChunkParse Prop_Chunk RoundCarry
  Spec_Events EventFacts Spec_EmitNames EmitQuoted EmitGrammar Spec_Canonical CanonLex CanonBody CanonItems CanonEmit CanonToks CanonStep CanonRun CanonParse.
Open Scope N_scope.

(** ** The characters of the text *)
Definition vis (c : char) : Prop := 32 <= c <= 126.
Lemma vis_ok c : vis c -> okc c.
Proof. unfold vis, okc, allowed_char, in_range. lia. Qed.
Lemma viss_ok (l : str) : Forall vis l -> Forall okc l.
Proof. apply Forall_impl, vis_ok. Qed.
Lemma alpha_vis c : is_alpha_c c = true -> vis c.
Proof. unfold is_alpha_c, vis, in_range. lia. Qed.
Lemma hex_vis d : d < 16 -> vis (hex_upper d).
Proof. unfold hex_upper, vis. destruct (_ <? _) eqn:E; lia. Qed.
Lemma uri_vis x : ascii x -> Forall vis (uri x).
Proof.
  induction 1 as [|c x Hc Hx IH]; [constructor|]. unfold uri. cbn [flat_map]. apply Forall_app. split; [|exact IH]. unfold uri1. destruct (tag_uri_char c) eqn:E.
  - constructor; [|constructor]. unfold tag_uri_char in E. apply orb_true_iff in E. destruct E as [E|E]; [apply alpha_vis, E|]. cbn [existsb] in E. unfold vis. lia.
  - constructor; [unfold vis; lia|]. constructor; [apply hex_vis; apply N.div_lt_upper_bound; [lia|]; lia|]. constructor; [apply hex_vis, N.mod_lt; lia|constructor].
Qed.
Lemma lit_vis s : forallb (fun c => (32 <=? c) && (c <=? 126)) (lit s) = true -> Forall vis (lit s).
Proof. intros H. apply Forall_forall. intros c Hc. rewrite forallb_forall in H. specialize (H c Hc). unfold vis. lia. Qed.
Lemma handle_vis h : valid_handle h -> Forall vis h.
Proof.
  intros [-> |(w & -> & Hw)]; [apply lit_vis; reflexivity|]. apply Forall_app. split; [apply lit_vis; reflexivity|]. apply Forall_app. split; [|apply lit_vis; reflexivity].
  eapply Forall_impl; [|exact Hw]. intros c. unfold name_char, vis. cbn. lia.
Qed.
Lemma hexv_vis n : forall (l : str) a v, hex_value n l a = Some v -> length l = n -> Forall vis l.
Proof.
  induction n as [|n IH]; intros l a v H Hl; [destruct l; [constructor|discriminate]|]. destruct l as [|c l]; [discriminate|]. cbn [hex_value nth_error] in H.
  destruct (is_hex_c c) eqn:E; [|discriminate]. constructor; [unfold is_hex_c, in_range, vis in *; lia|]. eapply IH; [exact H|]. injection Hl as ->. reflexivity.
Qed.
Lemma lf_okc lf : lf_ok lf -> Forall okc lf.
Proof. intros [-> |[-> | ->]]; repeat constructor. Qed.
Lemma atom_okc lf a : lf_ok lf -> awf false lf a -> Forall okc (atext a).
Proof.
  intros Hl H. destruct a as [c|e c| | |t c]; cbn [awf atext] in *.
  - destruct H as (_ & _ & [H|[_ H]]); [discriminate|]. constructor; [exact H|constructor].
  - destruct H as [_ H]. destruct e as [|x r]; [contradiction|]. destruct H as (_ & _ & H). constructor; [reflexivity|]. destruct (escape_code x) as [[d|n]|] eqn:E; [| |contradiction].
    + destruct H as [-> _]. constructor; [|constructor]. unfold escape_code in E. unfold okc, allowed_char, in_range.
      repeat match type of E with (if ?b then _ else _) = _ => destruct b eqn:? ; [lia|] end. discriminate.
    + destruct H as [Hn Hv]. constructor; [|apply viss_ok; eapply hexv_vis; eassumption]. unfold escape_code in E. unfold okc, allowed_char, in_range.
      repeat match type of E with (if ?b then _ else _) = _ => destruct b eqn:? ; [lia|] end. discriminate.
  - discriminate H.
  - repeat constructor.
  - destruct H as [[_ ->]|[[-> | ->] ->]]; [apply lf_okc, Hl| |]; repeat constructor.
Qed.
Lemma item_okc lf i : lf_ok lf -> item_ok lf i -> Forall okc (itext lf i).
Proof.
  intros Hl H. destruct i as [| |mp|mp| | | |al a|f|ats| | |d|h x]; cbn [item_ok itext] in *; try solve [repeat constructor]; try (destruct mp; repeat constructor).
  - apply lf_okc, Hl.
  - destruct H as [_ H]. constructor; [destruct al; reflexivity|]. apply viss_ok. apply Forall_forall. intros c Hc. rewrite forallb_forall in H. apply alpha_vis, H, Hc.
  - apply viss_ok. destruct f as [x| |h x]; cbn [form_ok form_text] in *.
    + apply Forall_app. split; [repeat constructor; unfold vis; lia|]. apply Forall_app. split; [apply uri_vis, H|repeat constructor; unfold vis; lia].
    + repeat constructor; unfold vis; lia.
    + apply Forall_app. split; [apply handle_vis, H|apply uri_vis, H].
  - destruct H as [H _]. constructor; [reflexivity|]. apply Forall_app. split; [|repeat constructor]. clear -H Hl. induction H as [|a l Ha _ IH]; [constructor|]. rewrite flat_cons. apply Forall_app. split; [eapply atom_okc; eassumption|exact IH].
  - apply Forall_app. split; [apply viss_ok, lit_vis; reflexivity|]. apply Forall_app. split; [|apply lf_okc, Hl]. constructor; [|constructor]. apply vis_ok. unfold vis. lia.
  - destruct H as (H1 & _ & H2). apply Forall_app. split; [apply viss_ok, lit_vis; reflexivity|]. apply Forall_app. split; [apply viss_ok, handle_vis, H1|]. apply Forall_app. split; [repeat constructor|].
    apply Forall_app. split; [apply viss_ok, uri_vis, H2|apply lf_okc, Hl].
Qed.
Lemma texts_okc lf its : lf_ok lf -> Forall (item_ok lf) its -> Forall okc (texts lf its).
Proof. intros Hl. induction 1 as [|i its Hi _ IH]; [constructor|]. unfold texts. cbn [flat_map]. apply Forall_app. split; [apply item_okc; assumption|exact IH]. Qed.
(** It starts with an ASCII character. *)
Lemma item_head lf i : lf_ok lf -> item_ok lf i -> exists c r, itext lf i = c :: r /\ c < 128.
Proof.
  intros Hl H. destruct i as [| |mp|mp| | | |al a|f|ats| | |d|h x]; cbn [item_ok itext] in *; try solve [eexists _, _; split; [reflexivity|first [lia|reflexivity]]].
  - destruct Hl as [-> |[-> | ->]]; eexists _, _; (split; [reflexivity|first [lia|reflexivity]]).
  - eexists _, _; split; [reflexivity|destruct mp; lia].
  - eexists _, _; split; [reflexivity|destruct mp; lia].
  - eexists _, _; split; [reflexivity|destruct al; lia].
  - destruct f as [x| |h x]; cbn [form_ok form_text] in *; try (eexists _, _; split; [reflexivity|first [lia|reflexivity]]). destruct H as [H _]. destruct H as [-> |(w & -> & _)]; eexists _, _; (split; [reflexivity|first [lia|reflexivity]]).
Qed.
Lemma texts_head lf its : lf_ok lf -> Forall (item_ok lf) its -> its <> [] -> exists c r, texts lf its = c :: r /\ c < 128.
Proof.
  intros Hl H Hn. destruct H as [|i its Hi H]; [congruence|]. destruct (item_head lf i Hl Hi) as (c & r & E & Hc). exists c. unfold texts. cbn [flat_map]. rewrite E. cbn [app]. eexists. split; [reflexivity|exact Hc].
Qed.

(** ** With all of the text in the buffer *)
Definition oks (es : list event) : list (res (option event)) := map (fun e => Ok (Some e)) es.
Lemma ideal_run lf its ls' l st dbg e i : lf_ok lf -> Forall (item_ok lf) its -> lrun (LS 0 true false Free) its = Some ls' -> lv ls' = 0 ->
  crun (CS GDocs false false) l (toks its) st -> cg st = GEnd -> Forall ev_ok l ->
  exists es p', calls parser_next (S (length l)) (pwr (full (texts lf its)) (parser_start dbg e i)) = (oks es, p') /\ map e_data es = EvStreamStart Utf8 :: reread l /\ finished p'.
Proof.
  intros Hl Hok Hr Hv Hc Hg Hev. set (p0 := pwr (full (texts lf its)) (parser_start dbg e i)).
  assert (S0 : Sc lf (sc p0) (TStreamStart Utf8 :: toks its ++ [TStreamEnd])).
  { split; [|split; [reflexivity|discriminate]]. eexists. eapply Sc_init with (its := its) (ls' := ls'); try reflexivity; try assumption. apply full_ideal. }
  assert (G : gives (fun e p => e_data e = EvStreamStart Utf8 /\ at_docs lf true (toks its ++ [TStreamEnd]) p) (parse_stream_start p0)).
  { change p0 with (Mk_pst (sc p0) [] PStreamStart [] [] []). unfold parse_stream_start. eapply (g_peek lf Hl); [exact S0|]. intros t r s' Ed H' Et. rewrite Ed. apply g_goto.
    eapply (g_skip lf); [exact H'|exact Et|discriminate|]. intros s2 H2. apply g_ret. split; [reflexivity|]. exists s2, [], []. split; [exact H2|reflexivity]. }
  assert (M0 : state_machine p0 = parse_stream_start p0) by (change p0 with (Mk_pst (sc p0) [] PStreamStart [] [] []); reflexivity).
  assert (A0 : at_end p0 = false) by reflexivity. clearbody p0.
  destruct (next_of p0 parse_stream_start (fun e p => e_data e = EvStreamStart Utf8 /\ at_docs lf true (toks its ++ [TStreamEnd]) p) M0 A0 G) as (e0 & p1 & E0 & Ed0 & H1).
  destruct (all_calls lf Hl l true (CS GDocs false false) (toks its) st p1 Hc Hg eq_refl Hev H1) as (es & p' & E & Em & F).
  exists (e0 :: es), p'. split; [|split; [cbn [map]; rewrite Ed0, Em; reflexivity|exact F]]. cbn [calls oks map]. rewrite E0, E. reflexivity.
Qed.
Lemma finished_next p : finished p -> parser_next p = (Ok None, p).
Proof. intros H. unfold parser_next. unfold bind at 1. cbn [get]. unfold at_end. unfold finished in H. rewrite H. reflexivity. Qed.
Lemma finished_calls n : forall p, finished p -> calls parser_next n p = (repeat (Ok None) n, p).
Proof. induction n as [|n IH]; intros p H; [reflexivity|]. cbn [calls repeat]. rewrite (finished_next p H), (IH p H). reflexivity. Qed.
Lemma calls_app {S A} (m : M S A) a b : forall s, calls m (a + b) s = let (l, s1) := calls m a s in let (l', s2) := calls m b s1 in (l ++ l', s2).
Proof.
  induction a as [|a IH]; intros s; cbn [calls Nat.add]; [destruct (calls m b s); reflexivity|]. destruct (m s) as [r s1]. rewrite IH. destruct (calls m a s1) as [l s2]. destruct (calls m b s2). reflexivity.
Qed.

(** ** From any source *)
Lemma any_run tx dbg e i n os p' : input_text e i tx -> tx <> [] -> calls parser_next n (pwr (full tx) (parser_start dbg e i)) = (os, p') -> Forall succeeded os ->
  exists p2, calls parser_next n (parser_start dbg e i) = (os, p2).
Proof.
  intros Ht Hn H Hs.
  assert (J1 : J Utf8 tx (full tx)) by (destruct Ht as (_ & Hy & _); apply full_J, yaml_okcs, Hy).
  assert (J2 : J Utf8 tx (rof (scanner_start dbg e i))).
  { destruct (same_text_J dbg e i e i) as (E & tx' & K1 & _); [exists tx; auto|]. split; [apply (proj1 (text_of tx _)), input_text_start, Ht|].
    rewrite eff_eq. destruct Ht as (_ & _ & _ & l & Hl & He). assert (Q : l <> []) by (intros ->; inversion Hl as [|c lc ? ? Hc]; subst; [contradiction|]; destruct lc as [|b lc]; [inversion Hc|discriminate]).
    destruct e; try contradiction; [|reflexivity]. cbn. destruct He as [_ [He|[He _]]]; cbn in He; rewrite He; [reflexivity|]. destruct l; [congruence|reflexivity]. }
  rewrite runl_calls in H.
  destruct (runl_same prof pwr Utf8 succeeded (pwr (full tx) (parser_start dbg e i)) (rof (scanner_start dbg e i)) tx J1 J2 (fun ms => exists k, ms = repeat parser_next k /\ (k <= n)%nat)) with (ms := repeat parser_next n) as (tx' & x' & _ & _ & E).
  - intros ms m (k & Hk & Hkn). apply repeat_of_snoc in Hk. destruct Hk as (k' & -> & -> & ->). split; [exists k'; split; [reflexivity|lia]|apply P_next].
  - intros ms m os1 q (k & Hk & Hkn) Hr Ho HF. apply repeat_of_snoc in Hk. destruct Hk as (k' & -> & -> & ->).
    rewrite <- runl_calls in H, Hr. replace n with (k' + (1 + (n - S k')))%nat in H by lia. rewrite calls_app, Hr in H. cbn [Nat.add calls] in H.
    destruct (parser_next q) as [r q1]. cbn [fst] in HF. subst r. destruct (calls parser_next (n - S k') q1). injection H as <- _. apply Forall_app in Hs. destruct Hs as [_ Hs]. exact (Forall_inv Hs).
  - intros ms m os1 q (k & Hk & Hkn) Hr Ho. apply repeat_of_snoc in Hk. destruct Hk as (k' & -> & -> & ->). rewrite <- runl_calls in Hr. exact (C12_every_call_returns dbg e i k' os1 q Hr Ho).
  - exists n. split; [reflexivity|lia].
  - rewrite H. exact Hs.
  - rewrite H in E. cbn [fst snd] in E. eexists. rewrite runl_calls. exact E.
Qed.
