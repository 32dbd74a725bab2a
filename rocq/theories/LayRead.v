(** LayRead.v -- reading a text in block or flow layout. *)
From Coq Require Import Lia ZifyBool ZifyNat ZifyN Bool.
From Verif Require Import Base Utf Chars State Reader Scanner Parser Wp ScanFacts RoundScan RoundPlain EState Emitter Document Api Spec_Tokens Spec_Scanner Spec_Reader Spec_Parser Utf8Facts ReaderFacts ReadFacts Prop_Reader Prop_Parser Chunk ChunkParse Prop_Chunk RoundCarry
  Spec_Events EventFacts Spec_EmitNames EmitQuoted EmitGrammar Spec_Canonical CanonLex CanonBody LayItems LayLex LayScan Spec_Layout LayToks LayParse.
From Verif Require CanonRead Spec_Styles LexBase.
Open Scope N_scope.

(** ** The characters of the text *)
Lemma in_den ch l : forall g, In (AChar ch) l -> In ch (den g l).
Proof.
  induction l as [|a l IH]; intros g H; [contradiction H|]. cbn [den]. destruct H as [-> |H].
  - cbn [word aval]. apply in_or_app. right. left. reflexivity.
  - destruct (word a); [apply in_or_app; right; right|]; apply IH, H.
Qed.
Lemma brk_okc lf t ch : lf_ok lf -> brk lf t ch -> Forall okc t.
Proof. intros Hl [[_ ->]|[[-> | ->] ->]]; [apply CanonRead.lf_okc, Hl| |]; repeat constructor. Qed.
Lemma atoms_okc lf (l : list atom) : lf_ok lf -> Forall (fun a => match a with AChar ch => okc ch | a => awf false lf a \/ awf true lf a end) l -> Forall okc (flat l).
Proof.
  intros Hl. induction 1 as [|a l Ha _ IH]; [constructor|]. rewrite flat_cons. apply Forall_app. split; [|exact IH]. destruct a as [ch|e ch| | |t ch].
  - constructor; [exact Ha|constructor].
  - destruct Ha as [Ha|[Ha _]]; [|discriminate Ha]. exact (CanonRead.atom_okc lf _ Hl Ha).
  - repeat constructor.
  - repeat constructor.
  - destruct Ha as [Ha|Ha]; exact (brk_okc lf t ch Hl Ha).
Qed.
Lemma writable_okc u ch : Spec_Styles.writable u ch -> okc ch.
Proof. intros [H _]. unfold Spec_Styles.printable in H. unfold okc, allowed_char, in_range. lia. Qed.
Lemma pw_atoms flow lf l : forall prev, pw flow prev lf l -> Forall okc (den g0 l) -> Forall (fun a => match a with AChar ch => okc ch | a => awf false lf a \/ awf true lf a end) l.
Proof.
  intros prev H Hv. apply Forall_forall. intros a Ha. destruct a as [ch|e ch| | |t ch]; try (pose proof (pw_split _ _ _ _ H) as P; rewrite Forall_forall in P; destruct (P _ Ha) as [K|[? K]]; [right; exact K|discriminate K]).
  rewrite Forall_forall in Hv. apply Hv, in_den, Ha.
Qed.
Lemma ltext_okc lf n (v : str) : lf_ok lf -> Forall (fun ch => allowed_char ch = true) v -> forall b, Forall okc (RoundLiteral.ltext lf n b v).
Proof.
  intros Hl. assert (S : forall k, Forall okc (repeat 32 k)) by (induction k; repeat constructor; assumption).
  induction 1 as [|ch v Hc _ IH]; intros b; cbn [RoundLiteral.ltext]; [constructor|].
  destruct (is_break_c ch); apply Forall_app; split; try apply IH.
  - unfold RoundLiteral.btext. destruct (ch =? 10); [apply CanonRead.lf_okc, Hl|constructor; [exact Hc|constructor]].
  - destruct b; [apply S|constructor].
  - constructor; [exact Hc|apply IH].
Qed.
Lemma item_okc lf i : lf_ok lf -> item_ok lf i -> Forall okc (itext lf i).
Proof.
  intros Hl H. destruct i as [| | | |mp|mp| | | | |al a|f|single ats|flow k ats|li n d v| | |d|h x]; cbn [item_ok itext] in *; try solve [repeat constructor]; try (destruct mp; repeat constructor).
  - apply CanonRead.lf_okc, Hl.
  - destruct H as [_ H]. constructor; [destruct al; reflexivity|]. apply CanonRead.viss_ok. apply Forall_forall. intros c Hc. rewrite forallb_forall in H. apply CanonRead.alpha_vis, H, Hc.
  - apply CanonRead.viss_ok. destruct f as [x| |h x]; cbn [form_ok form_text] in *.
    + apply Forall_app. split; [repeat constructor; unfold CanonRead.vis; lia|]. apply Forall_app. split; [apply CanonRead.uri_vis, H|repeat constructor; unfold CanonRead.vis; lia].
    + repeat constructor; unfold CanonRead.vis; lia.
    + apply Forall_app. split; [apply CanonRead.handle_vis, H|apply CanonRead.uri_vis, H].
  - destruct H as (H & _ & Hc). assert (Q : okc (quote_char single)) by (destruct single; reflexivity). constructor; [exact Q|]. apply Forall_app. split; [|constructor; [exact Q|constructor]].
    apply (atoms_okc lf); [exact Hl|]. apply Forall_forall. intros a Ha. rewrite Forall_forall in H. pose proof (H a Ha) as K. destruct a as [ch|e ch| | |t ch]; try (destruct single; [right|left]; exact K).
    destruct single; [specialize (Hc eq_refl); rewrite Forall_forall in Hc; apply Hc, in_den, Ha|]. destruct K as (_ & _ & [K|[_ K]]); [discriminate K|exact K].
  - destruct H as (u & v & (Hw & _) & _ & P & _ & D & _). apply (atoms_okc lf); [exact Hl|]. eapply pw_atoms; [exact P|]. rewrite D. eapply Forall_impl; [|exact Hw]. apply writable_okc.
  - destruct H as (_ & _ & Hd & _ & Hv). constructor; [destruct li; reflexivity|]. apply Forall_app. split; [unfold RoundLiteral.hint_text; destruct (RoundLiteral.hinted v); repeat constructor; apply CanonRead.vis_ok; unfold CanonRead.vis; lia|].
    apply Forall_app. split; [unfold RoundLiteral.chomp_text; destruct (_ =? _)%Z; [|destruct (_ =? _)%Z]; repeat constructor|]. apply Forall_app. split; [apply CanonRead.lf_okc, Hl|].
    apply ltext_okc; assumption.
  - apply Forall_app. split; [apply CanonRead.viss_ok, CanonRead.lit_vis; reflexivity|]. apply Forall_app. split; [|apply CanonRead.lf_okc, Hl]. constructor; [|constructor]. apply CanonRead.vis_ok. unfold CanonRead.vis. lia.
  - destruct H as (H1 & _ & H2). apply Forall_app. split; [apply CanonRead.viss_ok, CanonRead.lit_vis; reflexivity|]. apply Forall_app. split; [apply CanonRead.viss_ok, CanonRead.handle_vis, H1|]. apply Forall_app. split; [repeat constructor|].
    apply Forall_app. split; [apply CanonRead.viss_ok, CanonRead.uri_vis, H2|apply CanonRead.lf_okc, Hl].
Qed.
Lemma texts_okc lf its : lf_ok lf -> Forall (item_ok lf) its -> Forall okc (texts lf its).
Proof. intros Hl. induction 1 as [|i its Hi _ IH]; [constructor|]. rewrite texts_cons. apply Forall_app. split; [apply item_okc; assumption|exact IH]. Qed.
(** Without text there are no tokens. *)
Lemma no_text lf its : lf_ok lf -> Forall (item_ok lf) its -> texts lf its = [] -> forall s s' t, lli s = [] -> lrun lf s its = Some (s', t) -> t = [].
Proof.
  intros Hl. induction 1 as [|i its Hi _ IH]; intros Ht s s' t Hs Hr; [cbn in Hr; injection Hr as _ <-; reflexivity|].
  rewrite texts_cons in Ht. apply app_eq_nil in Ht. destruct Ht as [Ht1 Ht2]. apply lrun_cons in Hr. destruct Hr as (s1 & t1 & t2 & H1 & H2 & ->).
  assert (K : t1 = [] /\ lli s1 = []).
  { assert (T : forall x, is_pre i = false -> x = i -> t1 = [] /\ lli s1 = []).
    { intros x Hp _. destruct (itext_start lf i [] Hi Hp) as [_ Hn]. contradiction. }
    destruct i; try (apply (T _ eq_refl eq_refl)); cbn [itext] in Ht1; try discriminate Ht1.
    all: cbn [lstep] in H1.
    all: try (destruct Hl as [-> |[-> | ->]]; discriminate Ht1).
    - rewrite Hs in H1. destruct (guard _); discriminate H1.
    - unfold option_bind, guard in H1. repeat match type of H1 with context [if ?b then _ else _] => destruct b; try discriminate H1 end; injection H1 as <- <-; split; [reflexivity|exact Hs]. }
  destruct K as [-> K]. exact (IH Ht2 _ _ _ K H2).
Qed.

(** ** With all of the text in the buffer *)
Lemma ideal_run lf its ls' tk l st dbg e i : lf_ok lf -> Forall (item_ok lf) its -> lrun lf ls0 its = Some (ls', tk) -> final ls' ->
  lcrun (LT (LDocs true) false false) l tk st -> lg st = LEndS -> Forall ev_ok l ->
  exists es p', calls parser_next (S (length l)) (pwr (full (texts lf its)) (parser_start dbg e i)) = (CanonRead.oks es, p') /\ Forall2 told (EvStreamStart Utf8 :: l) (map e_data es) /\ finished p'.
Proof.
  intros Hl Hok Hr Hv Hc Hg Hev. set (T := texts lf its). set (p0 := pwr (full T) (parser_start dbg e i)).
  assert (S0 : Sc lf T (sc p0) (TStreamStart Utf8 :: tk ++ [TStreamEnd])).
  { split; [|split; [reflexivity|discriminate]]. eexists. eapply (Sc_init lf T _ its ls' tk); try reflexivity; try assumption; [apply full_ideal|].
    unfold Hx. constructor; [reflexivity| |reflexivity|discriminate|right; split; reflexivity].
    assert (J1 : J Utf8 T (full T)) by (apply full_J, texts_okc; assumption). destruct J1 as [J1 _]. destruct J1. constructor; assumption. }
  assert (G : gives (fun e p => e_data e = EvStreamStart Utf8 /\ at_docs lf T true (tk ++ [TStreamEnd]) p) (parse_stream_start p0)).
  { change p0 with (Mk_pst (sc p0) [] PStreamStart [] [] []). unfold parse_stream_start. eapply (g_peek lf Hl T); [exact S0|]. intros t s' Ed H' Et. rewrite Ed. apply g_goto.
    eapply (g_skip lf T); [exact H'|exact Et|discriminate|]. intros s2 H2. apply g_ret. split; [reflexivity|]. exists s2, [], []. split; [exact H2|reflexivity]. }
  assert (M0 : state_machine p0 = parse_stream_start p0) by (change p0 with (Mk_pst (sc p0) [] PStreamStart [] [] []); reflexivity).
  assert (A0 : at_end p0 = false) by reflexivity. clearbody p0.
  destruct (next_of p0 parse_stream_start (fun e p => e_data e = EvStreamStart Utf8 /\ at_docs lf T true (tk ++ [TStreamEnd]) p) M0 A0 G) as (e0 & p1 & E0 & Ed0 & H1).
  destruct (all_calls lf Hl T l (LT (LDocs true) false false) tk st p1 Hc Hg eq_refl Hev H1) as (es & p' & E & Em & F).
  exists (e0 :: es), p'. split; [|split; [cbn [map]; rewrite Ed0; constructor; [constructor|exact Em]|exact F]]. cbn [calls CanonRead.oks map]. rewrite E0, E. reflexivity.
Qed.
