(** LayWrite.v -- programs of the emitter that write items. *)
From Coq Require Import Lia ZifyBool ZifyNat ZifyN Bool.
From Verif Require Import Base Utf Chars State Reader Scanner Wp ScanFacts RoundScan RoundPlain EState Emitter Document Api EmitText EmitScalar EmitQuoted Spec_Events EventFacts Spec_EmitNames EmitGrammar CanonLex CanonBody LayItems LayScan LayToks LayKeys LayEmit.
From Verif Require CanonEmit CanonStep Spec_Lexical Spec_Styles RoundLiteral EmitLiteral Spec_Folded EmitFolded.
Import Spec_Lexical (breaks_line).
Open Scope N_scope.

Ltac keeps_core := let H := fresh in intros H; apply CanonEmit.is_core_iff in H; apply CanonEmit.is_core_iff; exact H.
Section lay.
Variable lf : str.
Hypothesis Hlf : lf_ok lf.
Notation lstep := (lstep lf).
Notation lrun := (lrun lf).
Notation texts := (texts lf).
Notation item_ok := (item_ok lf).
Notation itext := (itext lf).

(** ** Judgement: [m] writes items that may stand here; the tokens of a marked simple key count at the mark *)
Definition post := list token_data -> est -> lstate -> Prop.
Definition W (m : M est unit) (c : est) (ls : lstate) (Q : post) : Prop :=
  is_core c -> exists its c' ls' t tk, runs m c (texts its) (Ok tt) c' /\ is_core c' /\ Forall item_ok its /\ lrun ls its = Some (ls', t) /\ pend ls ++ tk = t ++ pend ls' /\ Q tk c' ls'.
Lemma W_runs m c ls its c' ls' t tk (Q : post) : runs m c (texts its) (Ok tt) c' -> (is_core c -> is_core c') -> Forall item_ok its -> lrun ls its = Some (ls', t) -> pend ls ++ tk = t ++ pend ls' -> Q tk c' ls' -> W m c ls Q.
Proof. intros R Hc' Hi Hl Hp Hq Hc. exists its, c', ls', t, tk. auto 10. Qed.
Lemma W_still m c c' ls (Q : post) : runs m c [] (Ok tt) c' -> (is_core c -> is_core c') -> Q [] c' ls -> W m c ls Q.
Proof. intros R Hc' Hq. eapply (W_runs _ _ _ []); [exact R|exact Hc'|constructor|reflexivity|apply app_nil_r|exact Hq]. Qed.
Lemma W_ret c ls (Q : post) : Q [] c ls -> W (ret tt) c ls Q.
Proof. apply W_still; [apply runs_ret|auto]. Qed.
Lemma W_conseq m c ls (Q Q' : post) : W m c ls Q -> (forall t c' ls', Q t c' ls' -> Q' t c' ls') -> W m c ls Q'.
Proof. intros H HQ Hc. destruct (H Hc) as (its & c' & ls' & t & tk & R & Hc' & Hi & Hl & Hp & Hq). exists its, c', ls', t, tk. auto 10. Qed.
Lemma W_seq m k c ls (Q : post) : W m c ls (fun t c1 ls1 => W k c1 ls1 (fun t' c2 ls2 => Q (t ++ t') c2 ls2)) -> W (m ;; k) c ls Q.
Proof.
  intros H Hc. destruct (H Hc) as (its & c1 & ls1 & t & tk & R & Hc1 & Hi & Hl & Hp & H2). destruct (H2 Hc1) as (its2 & c2 & ls2 & t2 & tk2 & R2 & Hc2 & Hi2 & Hl2 & Hp2 & Hq).
  exists (its ++ its2), c2, ls2, (t ++ t2), (tk ++ tk2). rewrite texts_app. split; [exact (runs_seq _ _ _ _ _ _ _ _ R R2)|]. split; [exact Hc2|]. split; [apply Forall_app; auto|].
  split; [exact (lrun_join lf its ls its2 ls1 t ls2 t2 Hl Hl2)|]. split; [|exact Hq]. rewrite app_assoc, Hp, <- app_assoc, Hp2, app_assoc. reflexivity.
Qed.
(** Items without text. *)
Lemma W_pre its m c ls ls1 t tk (Q : post) : texts its = [] -> Forall item_ok its -> lrun ls its = Some (ls1, t) -> pend ls ++ tk = t ++ pend ls1 -> W m c ls1 (fun t' c2 ls2 => Q (tk ++ t') c2 ls2) -> W m c ls Q.
Proof.
  intros Ht Hi Hl Hp H Hc. destruct (H Hc) as (its2 & c2 & ls2 & t2 & tk2 & R2 & Hc2 & Hi2 & Hl2 & Hp2 & Hq). exists (its ++ its2), c2, ls2, (t ++ t2), (tk ++ tk2).
  rewrite texts_app, Ht. split; [exact R2|]. split; [exact Hc2|]. split; [apply Forall_app; auto|]. split; [exact (lrun_join lf its ls its2 ls1 t ls2 t2 Hl Hl2)|]. split; [|exact Hq].
  rewrite app_assoc, Hp, <- app_assoc, Hp2, app_assoc. reflexivity.
Qed.
Lemma W_get k c ls Q : (forall s, k s = k (core s)) -> W (k c) c ls Q -> W (bind get k) c ls Q.
Proof. intros Hk H Hc. destruct (H Hc) as (its & c1 & ls1 & t & tk & R & H'). exists its, c1, ls1, t, tk. split; [apply runs_get; [exact Hk|exact R]|exact H']. Qed.
Lemma W_modify f c ls (Q : post) : inner f -> (is_core c -> is_core (f c)) -> Q [] (f c) ls -> W (modify f) c ls Q.
Proof. intros Hf Hc' H Hc. exists [], (f c), ls, [], []. split; [apply runs_modify'; [exact Hf|exact (Hc' Hc)]|]. split; [auto|]. split; [constructor|]. split; [reflexivity|]. split; [apply app_nil_r|exact H]. Qed.
Lemma W_set f x y w i c ls (Q : post) : inner f -> (is_core (mv x y w i c) -> is_core (f (mv x y w i c))) -> Q [] (f (mv x y w i c)) ls -> W (modify f) (mv x y w i c) ls Q.
Proof. apply W_modify. Qed.
Lemma W_when b m c ls (Q : post) : (b = true -> W m c ls Q) -> (b = false -> Q [] c ls) -> W (when b m) c ls Q.
Proof. intros H1 H2. destruct b; [exact (H1 eq_refl)|apply W_ret, H2; reflexivity]. Qed.
Lemma W_ext m m' c ls Q : (forall s, m s = m' s) -> W m c ls Q -> W m' c ls Q.
Proof. intros E H Hc. destruct (H Hc) as (its & c' & ls' & t & tk & R & H'). exists its, c', ls', t, tk. split; [exact (runs_ext _ _ _ _ _ _ E R)|exact H']. Qed.
Lemma W_assoc (m k r : M est unit) c ls Q : W ((m ;; k) ;; r) c ls Q -> W (m ;; (k ;; r)) c ls Q.
Proof. apply W_ext. intros s. unfold bind. destruct (m s) as [[[]|?|?|] ?]; reflexivity. Qed.
Lemma W_val {A} (m : M est A) a k c ls Q : (forall s, core s = c -> m s = (Ok a, s)) -> W (k a) c ls Q -> W (bind m k) c ls Q.
Proof.
  intros Hm H Hc. destruct (H Hc) as (its & c' & ls' & t' & tk & R & H'). exists its, c', ls', t', tk. split; [|exact H'].
  intros s e t Hs Hh. specialize (R s e t Hs Hh). unfold outcome in *. unfold bind. rewrite (Hm s Hs). exact R.
Qed.
Lemma W_push a x y w i c ls (Q : post) : Q [] (mv x y w i (set_em_states (a :: em_states c) c)) ls -> W (push_estate a) (mv x y w i c) ls Q.
Proof. intros H. unfold push_estate. apply W_set; [inner|keeps_core|exact H]. Qed.
Lemma W_goto a x y w i c ls (Q : post) : Q [] (mv x y w i (set_em_state a c)) ls -> W (goto_estate a) (mv x y w i c) ls Q.
Proof. intros H. unfold goto_estate. apply W_set; [inner|keeps_core|exact H]. Qed.
Lemma W_flow n x y w i c ls (Q : post) : Q [] (mv x y w i (set_em_flow_level (em_flow_level c + n) c)) ls -> W (add_flow_level n) (mv x y w i c) ls Q.
Proof. intros H. unfold add_flow_level. apply W_set; [inner|keeps_core|exact H]. Qed.
Lemma W_pop a r x y w i c ls (Q : post) : em_states c = a :: r -> Q [] (mv x y w i (set_em_state a (set_em_states r c))) ls -> W pop_estate (mv x y w i c) ls Q.
Proof.
  intros Hs H. apply (W_still _ _ (mv x y w i (set_em_state a (set_em_states r c)))); [|keeps_core|exact H].
  apply runs_core. intros Hc.
  assert (E : pop_estate (mv x y w i c) = (Ok tt, mv x y w i (set_em_state a (set_em_states r c)))) by (unfold pop_estate; change (em_states (mv x y w i c)) with (em_states c); rewrite Hs; reflexivity).
  eapply runs_conseq; [apply (runs_raw pop_estate)|reflexivity|rewrite E; reflexivity|].
  - intros s. unfold pop_estate. change (em_states (core s)) with (em_states s). destruct (em_states s); repeat split.
  - rewrite E. cbn [snd]. apply CanonEmit.is_core_iff in Hc. change (core (mv x y w i (set_em_state a (set_em_states r c))) = mv x y w i (set_em_state a (set_em_states r c))).
    apply (CanonEmit.is_core_iff (mv x y w i (set_em_state a (set_em_states r c)))). exact Hc.
Qed.
Lemma W_pop_indent a r x y w i c ls (Q : post) : em_indents c = a :: r -> Q [] (mv x y w i (set_em_indent a (set_em_indents r c))) ls -> W pop_indent (mv x y w i c) ls Q.
Proof.
  intros Hs H. apply (W_still _ _ (mv x y w i (set_em_indent a (set_em_indents r c)))); [|keeps_core|exact H].
  apply runs_core. intros Hc.
  assert (E : pop_indent (mv x y w i c) = (Ok tt, mv x y w i (set_em_indent a (set_em_indents r c)))) by (unfold pop_indent; change (em_indents (mv x y w i c)) with (em_indents c); rewrite Hs; reflexivity).
  eapply runs_conseq; [apply (runs_raw pop_indent)|reflexivity|rewrite E; reflexivity|].
  - intros s. unfold pop_indent. change (em_indents (core s)) with (em_indents s). destruct (em_indents s); repeat split.
  - rewrite E. cbn [snd]. apply CanonEmit.is_core_iff in Hc. change (core (mv x y w i (set_em_indent a (set_em_indents r c))) = mv x y w i (set_em_indent a (set_em_indents r c))).
    apply (CanonEmit.is_core_iff (mv x y w i (set_em_indent a (set_em_indents r c)))). exact Hc.
Qed.
Definition new_indent (flow indentless : bool) (ind best : Z) : Z := if (ind <? 0)%Z then if flow then best else 0%Z else if indentless then ind else (ind + best)%Z.
Lemma W_increase fl il x y w i c ls (Q : post) :
  Q [] (mv x y w i (set_em_indent (new_indent fl il (em_indent c) (em_best_indent c)) (set_em_indents (em_indent c :: em_indents c) c))) ls -> W (increase_indent fl il) (mv x y w i c) ls Q.
Proof.
  intros H. unfold increase_indent. apply W_set.
  - intros s. cbv zeta. change (em_indent (set_em_indents (em_indent (core s) :: em_indents (core s)) (core s))) with (em_indent s).
    change (em_indent (set_em_indents (em_indent s :: em_indents s) s)) with (em_indent s). destruct (em_indent s <? 0)%Z; [|destruct (negb il)]; repeat split.
  - cbv zeta. destruct (_ <? 0)%Z; [|destruct (negb il)]; keeps_core.
  - cbv zeta. set (q := mv x y w i c). change (em_indent (set_em_indents (em_indent q :: em_indents q) q)) with (em_indent c). unfold new_indent in H. destruct (em_indent c <? 0)%Z; [exact H|].
    destruct il; cbn [negb]; [|exact H]. replace (set_em_indents (em_indent q :: em_indents q) q) with (set_em_indent (em_indent c) (set_em_indents (em_indent q :: em_indents q) q)); [exact H|].
    subst q. destruct c; reflexivity.
Qed.

(** ** Writing *)
Lemma sp_text w its : texts (sp w ++ its) = (if negb w then [cSP] else []) ++ texts its. Proof. destruct w; reflexivity. Qed.
Lemma sp_ok w its : Forall item_ok its -> Forall item_ok (sp w ++ its). Proof. intros H. destruct w; [exact H|constructor; [exact Logic.I|exact H]]. Qed.
Lemma W_indicator it l nw iw ii x y w i c ls ls' t tk (Q : post) : itext it = l -> item_ok it -> lrun ls (sp (negb (nw && negb w)) ++ [it]) = Some (ls', t) -> pend ls ++ tk = t ++ pend ls' ->
  Q tk (mv (x + (if nw && negb w then 1 else 0) + Z.of_nat (length l)) y iw (i && ii) c) ls' -> W (write_indicator l nw iw ii) (mv x y w i c) ls Q.
Proof.
  intros Hl Hi Hs Hp Hq. eapply (W_runs _ _ _ (sp (negb (nw && negb w)) ++ [it])); [| | |exact Hs|exact Hp|exact Hq].
  - rewrite sp_text. cbn [LayScan.texts flat_map]. rewrite Hl, app_nil_r, negb_involutive. apply r_write_indicator.
  - apply CanonEmit.mv_core.
  - apply sp_ok. constructor; [exact Hi|constructor].
Qed.
Lemma text_spaces n : texts (repeat ISp n) = sps n.
Proof. induction n as [|n IH]; [reflexivity|]. cbn [repeat LayScan.texts flat_map LayItems.itext app]. change (32 :: texts (repeat ISp n) = sps (S n)). rewrite IH. reflexivity. Qed.
Lemma spaces_ok n : Forall item_ok (repeat ISp n).
Proof. induction n; constructor; [exact Logic.I|assumption]. Qed.
Lemma W_break c x y w ls ls' (Q : post) : break_chars (em_line_break c) = lf -> lrun ls (IBr :: repeat ISp (Z.to_nat (em_indent c))) = Some (ls', []) -> pend ls = [] -> pend ls' = [] ->
  (forall y', Q [] (mv (Z.max (em_indent c) 0) y' true true c) ls') -> W write_indent (mv x y w false c) ls Q.
Proof.
  intros Hl Hr P1 P2 Hq. eapply (W_runs _ _ _ (IBr :: repeat ISp (Z.to_nat (em_indent c)))); [| | |exact Hr| |apply Hq].
  - cbn [LayScan.texts flat_map LayItems.itext]. change (flat_map (LayItems.itext lf) (repeat ISp (Z.to_nat (em_indent c)))) with (texts (repeat ISp (Z.to_nat (em_indent c)))). rewrite text_spaces, <- Hl. apply CanonEmit.r_indent_break.
  - apply CanonEmit.mv_core.
  - constructor; [exact Logic.I|apply spaces_ok].
  - rewrite P1, P2. reflexivity.
Qed.
(** [write_indent] on a line where nothing but indentation and indicators stand. *)
Lemma r_indent_here c x y w n : (0 <= em_indent c)%Z -> em_indent c = (x + Z.of_nat n)%Z -> (n = O -> w = true) -> runs write_indent (mv x y w true c) (sps n) (Ok tt) (mv (em_indent c) y true true c).
Proof.
  intros H0 Hx Hw. unfold write_indent. apply runs_get; [reflexivity|]. change (em_indent (mv x y w true c)) with (em_indent c).
  change (em_indention (mv x y w true c)) with true. change (em_whitespace (mv x y w true c)) with w. change (em_column (mv x y w true c)) with x. cbv zeta.
  replace (if (0 <=? em_indent c)%Z then em_indent c else 0%Z) with (em_indent c) by (destruct (0 <=? em_indent c)%Z eqn:E; lia).
  replace (negb true || (em_indent c <? x)%Z || (x =? em_indent c)%Z && negb w) with false by (clear -Hx Hw; destruct w; [|destruct n; [discriminate (Hw eq_refl)|]]; cbn [negb]; lia). cbn [when].
  change (sps n) with ([] ++ sps n). refine (runs_seq _ _ _ [] (mv x y w true c) _ _ _ (runs_ret _ _) _). apply runs_get; [reflexivity|]. change (em_column (mv x y w true c)) with x.
  replace (Z.to_nat (em_indent c - x)) with n by lia. refine (runs_conseq _ _ _ _ _ _ _ _ (runs_seq _ _ _ _ _ [] _ _ (r_put_spaces _ _ _ _ _ _) (r_set_ws _ _ _ _ _ _ _)) (app_nil_r _) eq_refl _). rewrite Hx. reflexivity.
Qed.
Lemma W_here c x y w n ls ls' (Q : post) : (0 <= em_indent c)%Z -> em_indent c = (x + Z.of_nat n)%Z -> (n = O -> w = true) -> lrun ls (repeat ISp n) = Some (ls', []) -> pend ls = [] -> pend ls' = [] ->
  Q [] (mv (em_indent c) y true true c) ls' -> W write_indent (mv x y w true c) ls Q.
Proof.
  intros H0 Hx Hw Hr P1 P2 Hq. eapply (W_runs _ _ _ (repeat ISp n)); [| |apply spaces_ok|exact Hr|rewrite P1, P2; reflexivity|exact Hq].
  - rewrite text_spaces. apply r_indent_here; assumption.
  - apply CanonEmit.mv_core.
Qed.

(** ** What stands before a node, and leaves *)
Definition kin (y y' : key) : Prop := y = YNo <-> y' = YNo.
Lemma kin_refl y : kin y y. Proof. unfold kin. tauto. Qed.
Lemma kin_trans a b c : kin a b -> kin b c -> kin a c. Proof. unfold kin. tauto. Qed.
Lemma kin_less y n : kin y (less (sure y) n). Proof. unfold kin. destruct y; cbn; split; intros; congruence. Qed.
Lemma room_less y n b : room y (n + b) -> room (less (sure y) n) b. Proof. destruct y; cbn [room less sure]; auto; lia. Qed.
Lemma room_le y a b : a <= b -> room y b -> room y a. Proof. destruct y; cbn [room less sure]; auto; lia. Qed.
Lemma fits_room y t : has_break t = false -> room y (1 + str_len t) -> fits y t. Proof. intros H. destruct y; cbn [room fits]; auto; intros; split; auto; lia. Qed.
Lemma pend_at fs li ls y : At fs li ls y -> pend ls = []. Proof. intros H. unfold pend. rewrite (at_soon _ _ _ _ H). reflexivity. Qed.
Record props (fs : list lframe) (li : list N) (y : key) (b : N) (x : Z) (w i : bool) (ls : lstate) (tk : list token_data) (x' : Z) (w' i' : bool) (ls' : lstate) (y' : key) : Prop := Props {
  pr_np : NP w' fs li ls' y'; pr_room : room y' b; pr_kin : kin y y';
  pr_same : tk = [] /\ x' = x /\ w' = w /\ i' = i /\ ls' = ls \/ tk <> [] /\ w' = false /\ i' = false }.
Lemma props_none fs li y b x w i ls : NP w fs li ls y -> room y b -> props fs li y b x w i ls [] x w i ls y.
Proof. intros H Hr. constructor; [exact H|exact Hr|apply kin_refl|left; auto]. Qed.
(** Names. *)
Lemma alpha_text (a : str) : Forall name_char a -> has_break a = false.
Proof.
  induction 1 as [|ch a H _ IH]; [reflexivity|]. cbn [has_break existsb]. fold (has_break a). rewrite IH, orb_false_r. unfold breaks_line, name_char in *. lia.
Qed.
Lemma W_name a (alias : bool) fs li y b x x0 w i c ls (Q : post) : valid_name a -> NP w fs li ls y -> room y (str_len a + 2 + b) ->
  (forall x' ls' y', At fs li ls' y' -> room y' b -> kin y y' -> lal ls' = false -> ln ls' = Sep false -> (lv ls' = 0 -> (LayItems.top li <= Z.of_N (lcol ls'))%Z) ->
     Q [if alias then TAlias a else TAnchor a] (mv x' x0 false false c) ls') ->
  W (process_anchor (Some (a, alias))) (mv x x0 w i c) ls Q.
Proof.
  intros [Ha1 Ha2] Hnp Hr Hq. assert (Hb : has_break (itext (IName alias a)) = false).
  { cbn [LayItems.itext]. cbn [has_break existsb]. fold (has_break a). rewrite (alpha_text a Ha2), orb_false_r. destruct alias; reflexivity. }
  assert (Hl : str_len (itext (IName alias a)) = str_len a + 1) by (cbn [LayItems.itext]; rewrite LayKeys.str_len_cons; destruct alias; exact (N.add_comm 1 (str_len a))).
  destruct (NP_item lf w fs li ls y (IName alias a) (Sep false) (fun _ _ => true)) as (ls' & E & A & A1 & A2 & A3 & A4); [|exact Hnp| |auto|].
  { intros s. cbn [LayItems.lstep]. destruct (guard _); [|reflexivity]. cbn [option_bind]. destruct (flush s); [|reflexivity]. cbn [option_bind]. destruct (save l) as [[? ?]|]; reflexivity. }
  { apply fits_room; [exact Hb|]. rewrite Hl. eapply room_le; [|exact Hr]. lia. }
  eapply (W_runs _ _ _ (sp w ++ [IName alias a]) (mv (x + (if negb w then 1 else 0) + 1 + Z.of_nat (length a)) x0 false false c)).
  - rewrite sp_text. cbn [LayScan.texts flat_map LayItems.itext]. rewrite app_nil_r. cbn [process_anchor].
    change ((if alias then 42 else 38) :: a) with ([if alias then 42 else 38] ++ a). rewrite app_assoc.
    destruct alias.
    + exact (runs_seq _ _ _ _ _ _ _ _ (r_write_indicator c [cSTAR] true false false x x0 w i) (CanonEmit.r_anchor _ _ _ _ _ _)).
    + exact (runs_seq _ _ _ _ _ _ _ _ (r_write_indicator c [cAMP] true false false x x0 w i) (CanonEmit.r_anchor _ _ _ _ _ _)).
  - apply CanonEmit.mv_core.
  - apply sp_ok. constructor; [split; [exact Ha1|apply alpha_names, Ha2]|constructor].
  - exact E.
  - rewrite (pend_at _ _ _ _ A). symmetry. apply app_nil_r.
  - apply (Hq _ _ _ A); [rewrite Hl; apply room_less; eapply room_le; [|exact Hr]; lia|apply kin_less|exact A1|exact A2|intros Hv; apply A4; assumption].
Qed.

(** Tags. *)
Lemma hb_cons ch t : has_break (ch :: t) = breaks_line ch || has_break t. Proof. reflexivity. Qed.
Lemma uri_line x : ascii x -> has_break (uri x) = false /\ str_len (uri x) <= 3 * str_len x.
Proof.
  induction 1 as [|ch x H _ [IH1 IH2]]; [split; [reflexivity|cbn; lia]|]. unfold uri. cbn [flat_map]. fold (uri x). rewrite hb_app, LayKeys.str_len_app', LayKeys.str_len_cons, IH1, orb_false_r.
  assert (L1 : forall z, z < 128 -> len_utf8 z = 1) by (intros z Hz; unfold len_utf8; replace (z <? 128) with true by lia; reflexivity). rewrite (L1 ch H).
  unfold uri1. destruct (tag_uri_char ch) eqn:E.
  - split; [|rewrite LayKeys.str_len_cons, (L1 ch H); change (str_len []) with 0; lia]. rewrite hb_cons. cbn [has_break existsb]. rewrite orb_false_r. destruct (breaks_line ch) eqn:Eb; [|reflexivity]. exfalso.
    assert (ch = 10 \/ ch = 13) as [-> | ->] by (unfold breaks_line in Eb; lia); discriminate E.
  - assert (Hh : forall d, d < 16 -> hex_upper d < 128 /\ breaks_line (hex_upper d) = false) by (intros d Hd; unfold hex_upper, breaks_line; destruct (d <? 10) eqn:Ed; lia).
    assert (H1 : ch / 16 < 16) by (apply N.div_lt_upper_bound; lia). assert (H2 : ch mod 16 < 16) by (apply N.mod_upper_bound; lia).
    destruct (Hh _ H1) as [A1 A2], (Hh _ H2) as [B1 B2]. rewrite !hb_cons, A2, B2. split; [reflexivity|]. rewrite !LayKeys.str_len_cons, (L1 _ A1), (L1 _ B1). change (str_len []) with 0. change (len_utf8 37) with 1. lia.
Qed.
Lemma handle_line h : valid_handle h -> has_break h = false.
Proof. intros [-> |(w & -> & Hw)]; [reflexivity|]. rewrite !hb_app. change (has_break (lit "!")) with false. rewrite (alpha_text w Hw). reflexivity. Qed.
Lemma form_line h x : form_ok (CanonEmit.form_of h x) -> (x = [] -> h = lit "!") -> has_break (form_text (CanonEmit.form_of h x)) = false /\ str_len (form_text (CanonEmit.form_of h x)) <= str_len h + 3 * str_len x + 3.
Proof.
  intros Hf Hh. unfold CanonEmit.form_of in *. destruct h as [|h0 h]; cbn [is_empty] in *.
  - destruct Hf as [_ Ha]. destruct (uri_line x Ha) as [U1 U2]. cbn [form_text]. rewrite !hb_app, U1, !LayKeys.str_len_app'. split; [reflexivity|]. change (str_len [33; 60]) with 2. change (str_len [62]) with 1. lia.
  - destruct x as [|x1 x]; cbn [is_empty] in *; cbn [form_text].
    + split; [reflexivity|]. change (str_len [33]) with 1. lia.
    + destruct Hf as (Hv & _ & Ha & _). destruct (uri_line (x1 :: x) Ha) as [U1 U2]. rewrite hb_app, LayKeys.str_len_app', U1, (handle_line _ Hv). split; [reflexivity|]. lia.
Qed.
Lemma r_tag h x0 x y w i c : form_ok (CanonEmit.form_of h x0) -> (x0 = [] -> h = lit "!") ->
  exists x', runs (process_tag (Some (h, x0))) (mv x y w i c) ((if negb w then [cSP] else []) ++ form_text (CanonEmit.form_of h x0)) (Ok tt) (mv x' y false false c).
Proof.
  intros Hf Hh. cbn [process_tag]. unfold CanonEmit.form_of in *. destruct h as [|h0 h]; cbn [is_empty andb] in *.
  - destruct Hf as [Hf1 Hf2]. destruct x0 as [|x1 x0]; [congruence|]. cbn [is_empty].
    destruct (CanonEmit.r_tag_content (x1 :: x0) false (x + (if negb w then 1 else 0) + 2)%Z y false (i && false) c Hf2) as (x' & R). eexists.
    change (form_text (FVerbatim (x1 :: x0))) with ([33; 60] ++ uri (x1 :: x0) ++ [62]). rewrite app_assoc.
    refine (runs_seq _ _ _ _ _ _ _ _ (r_write_indicator c [cBANG; cLT] true false false x y w i) _).
    refine (runs_seq _ _ _ _ _ _ _ _ R _). apply (r_write_indicator c [cGT] false false false).
  - destruct x0 as [|x1 x0]; cbn [is_empty negb when] in *.
    + rewrite (Hh eq_refl). eexists. rewrite <- (app_nil_r (_ ++ _)). refine (runs_seq _ _ _ _ _ _ _ _ (CanonEmit.r_tag_handle _ _ _ _ _ _) (runs_ret _ _)).
    + destruct Hf as (_ & _ & Hf2 & _). change (form_text (FShort (h0 :: h) (x1 :: x0))) with ((h0 :: h) ++ uri (x1 :: x0)). rewrite app_assoc.
      destruct (CanonEmit.r_tag_content (x1 :: x0) false (x + (if negb w then 1 else 0) + Z.of_nat (length (h0 :: h)))%Z y false false c Hf2) as (x' & R). exists x'.
      exact (runs_seq _ _ _ _ _ _ _ _ (CanonEmit.r_tag_handle _ _ _ _ _ _) R).
Qed.
Lemma W_tag h x0 fs li k b x y w i c ls (Q : post) : form_ok (CanonEmit.form_of h x0) -> (x0 = [] -> h = lit "!") -> NP w fs li ls k -> room k (str_len h + 3 * str_len x0 + 4 + b) ->
  (forall x' ls' k', NP false fs li ls' k' -> room k' b -> kin k k' -> Q [form_token (CanonEmit.form_of h x0)] (mv x' y false false c) ls') ->
  W (process_tag (Some (h, x0))) (mv x y w i c) ls Q.
Proof.
  intros Hf Hh Hnp Hr Hq. destruct (form_line h x0 Hf Hh) as [Hb Hl]. set (it := ITag (CanonEmit.form_of h x0)).
  destruct (NP_item lf w fs li ls k it Blank (fun _ _ => true)) as (ls' & E & A & A1 & A2 & A3 & A4); [|exact Hnp| |auto|].
  { intros s. cbn [it LayItems.lstep]. destruct (guard _); [|reflexivity]. cbn [option_bind]. destruct (flush s); [|reflexivity]. cbn [option_bind]. destruct (save l) as [[? ?]|]; reflexivity. }
  { apply fits_room; [exact Hb|]. cbn [it LayItems.itext]. eapply room_le; [|exact Hr]. lia. }
  destruct (r_tag h x0 x y w i c Hf Hh) as (x' & R). eapply (W_runs _ _ _ (sp w ++ [it]) (mv x' y false false c)).
  - rewrite sp_text. cbn [it LayScan.texts flat_map LayItems.itext]. rewrite app_nil_r. exact R.
  - apply CanonEmit.mv_core.
  - apply sp_ok. constructor; [exact Hf|constructor].
  - exact E.
  - rewrite (pend_at _ _ _ _ A). symmetry. apply app_nil_r.
  - eapply (Hq x'); [|apply (room_less k (1 + str_len (itext it))); cbn [it LayItems.itext]; eapply room_le; [|exact Hr]; lia|apply kin_less].
    apply At_NP; [exact A|exact A1|rewrite A2; exact Logic.I|intros Hv; apply A4; assumption].
Qed.
(** The properties of a node. *)
Definition opt_len (o : option str) : N := match o with Some a => str_len a | None => 0 end.
Definition tag_len (o : option (str * str)) : N := match o with Some (h, x) => str_len h + str_len x | None => 0 end.
Lemma W_anchor_opt a fs li k b x y w i c ls (Q : post) : all valid_name a -> NP w fs li ls k -> room k (opt_len a + 2 + b) ->
  (forall x' w' i' ls' k', props fs li k b x w i ls (anchor_toks a) x' w' i' ls' k' -> Q (anchor_toks a) (mv x' y w' i' c) ls') -> W (process_anchor (option_map (fun a => (a, false)) a)) (mv x y w i c) ls Q.
Proof.
  intros Ha Hnp Hr Hq. destruct a as [a|]; cbn [option_map opt_len] in *; [|apply W_ret; eapply Hq, props_none; [exact Hnp|eapply room_le; [|exact Hr]; lia]].
  eapply (W_name a false); [exact Ha|exact Hnp|exact Hr|]. intros x' ls' k' A R K A1 A2 A3. eapply Hq. constructor; [apply At_NP; [exact A|exact A1|rewrite A2; exact Logic.I|exact A3]|exact R|exact K|].
  right. split; [discriminate|auto].
Qed.
Lemma W_tag_opt tds t o fs li k b x y w i c ls (Q : post) : CanonEmit.tag_an tds t o -> all (fun t => t <> []) t -> all (CanonStep.tag_fine tds) t -> (forall td, In td tds -> valid_handle (td_handle td)) ->
  NP w fs li ls k -> room k (3 * tag_len o + 4 + b) ->
  (forall tk x' w' i' ls' k', tag_toks tds t tk -> props fs li k b x w i ls tk x' w' i' ls' k' -> Q tk (mv x' y w' i' c) ls') -> W (process_tag o) (mv x y w i c) ls Q.
Proof.
  intros Ho Hn Hf Hh Hnp Hr Hq. destruct t as [t|], o as [[h s]|]; try contradiction Ho; cbn [tag_len] in Hr.
  2:{ cbn [process_tag]. apply W_ret. eapply Hq; [constructor|]. apply props_none; [exact Hnp|]. eapply room_le; [|exact Hr]; lia. }
  cbn [all] in Hn, Hf. destruct Hf as [Ha Hs].
  assert (G : form_ok (CanonEmit.form_of h s) -> (s = [] -> h = lit "!") -> tag_toks tds (Some t) [form_token (CanonEmit.form_of h s)] -> W (process_tag (Some (h, s))) (mv x y w i c) ls Q).
  { intros F1 F2 F3. eapply (W_tag h s fs li k b); [exact F1|exact F2|exact Hnp|eapply room_le; [|exact Hr]; unfold str, char in *; cbn [tag_len]; lia|]. intros x' ls' k' N1 N2 N3. eapply Hq; [exact F3|]. constructor; [exact N1|exact N2|exact N3|]. right. split; [discriminate|auto]. }
  destruct Ho as [[-> ->]|(td & Htd & -> & -> & Hx)].
  - apply G; [split; assumption|intros ->; destruct (Hn eq_refl)|constructor].
  - pose proof (Hh td Htd) as Hv. assert (E : CanonEmit.form_of (td_handle td) s = FShort (td_handle td) s).
    { unfold CanonEmit.form_of. replace (is_empty (td_handle td)) with false by (destruct Hv as [-> |(? & -> & _)]; reflexivity). destruct s; [congruence|reflexivity]. }
    apply G; rewrite ?E.
    + split; [exact Hv|]. split; [exact Hx|]. split; [apply Forall_app in Ha; apply Ha|]. eapply Hs; [exact Htd|reflexivity].
    + congruence.
    + constructor; assumption.
Qed.
Lemma W_bang tds fs li k b x y w i c ls (Q : post) : NP w fs li ls k -> room k (5 + b) ->
  (forall tk x' w' i' ls' k', tag_toks tds (Some (lit "!")) tk -> props fs li k b x w i ls tk x' w' i' ls' k' -> Q tk (mv x' y w' i' c) ls') -> W (process_tag (Some (lit "!", []))) (mv x y w i c) ls Q.
Proof.
  intros Hnp Hr Hq. eapply (W_tag (lit "!") [] fs li k b); [exact Logic.I|reflexivity|exact Hnp|eapply room_le; [|exact Hr]; change (str_len (lit "!")) with 1; change (str_len []) with 0; lia|].
  intros x' ls' k' N1 N2 N3. eapply Hq; [constructor|]. constructor; [exact N1|exact N2|exact N3|]. right. split; [discriminate|auto].
Qed.
Lemma props_trans fs li k b1 b2 x w i ls t1 x1 w1 i1 ls1 k1 t2 x2 w2 i2 ls2 k2 : props fs li k b1 x w i ls t1 x1 w1 i1 ls1 k1 -> props fs li k1 b2 x1 w1 i1 ls1 t2 x2 w2 i2 ls2 k2 -> props fs li k b2 x w i ls (t1 ++ t2) x2 w2 i2 ls2 k2.
Proof.
  intros [A1 A2 A3 A4] [B1 B2 B3 B4]. constructor; [exact B1|exact B2|eapply kin_trans; eassumption|].
  destruct B4 as [(-> & -> & -> & -> & ->)|(B4 & -> & ->)]; [rewrite app_nil_r; exact A4|]. right. split; [destruct t1; [exact B4|discriminate]|auto].
Qed.

(** A scalar that has a text. *)
Definition colk (flow : bool) (li : list N) : N := if flow then 1 else Z.to_N (Z.max 1 (LayItems.top li + 1)).
Lemma W_text u sty v fs li k b x y w i c ls (Q : post) : (1 <= em_indent c)%Z -> break_chars (em_line_break c) = lf ->
  style_text u (negb (flows fs =? 0)) sty v -> Forall (fun ch : char => is_scalar ch = true) v -> colk (negb (flows fs =? 0)) li <= Z.to_N (em_indent c) ->
  em_simple_key_context c = (match k with YNo => false | _ => true end) -> (em_simple_key_context c = true -> Forall (fun ch => ~ Spec_Styles.line_break ch) v) ->
  NP w fs li ls k -> room k (4 * str_len v + 3 + b) ->
  (forall x' y' ls' k', At fs li ls' k' -> room k' b -> kin k k' -> lal ls' = false -> (ln ls' = Sep true \/ ln ls' = Gapped false false) -> (k <> YNo -> lv ls' = 0 -> (LayItems.top li <= Z.of_N (lcol ls'))%Z) ->
     Q [TScalar v sty] (mv x' y' false false c) ls') ->
  W (process_scalar v sty) (mv x y w i c) ls Q.
Proof.
  intros Hi Hl Hst Hv Hk Hsk Hbr Hnp Hr Hq. set (flow := negb (flows fs =? 0)) in *.
  assert (Hk1 : 1 <= colk flow li) by (unfold colk; destruct flow; lia).
  destruct (scalar_item c Hi u flow (colk flow li) sty v x y w i Hst Hv Hk1 Hk Hbr) as (it & x' & y' & R & Iok & Itk & Lf & Ky). rewrite Hl in R, Iok, Ky.
  assert (S : exists n extra, (n = Sep true \/ n = Gapped false false) /\
    (forall s, lstep s it = (do _ <- guard (opens_gate s GNode); do s1 <- flush s; do (s2, tk) <- save s1; do _ <- guard (extra s s2); do s3 <- walk (itext it) s2; Some (then_ false n s3, tk ++ itok it))) /\
    (forall s s2, lv s = flows fs -> lcol s = lcol ls + (if w then 0 else 1) -> lli s2 = li -> (lv s = 0 -> (LayItems.top li <= Z.of_N (lcol s))%Z) -> extra s s2 = true)).
  { destruct it as [| | | | | | | | | | | |single ats|f k0 ats|n1 d1 v1| | | |]; try contradiction Lf.
    - exists (Sep true), (fun _ _ => true). split; [auto|]. split; [|auto]. intros s. cbn [LayItems.lstep]. destruct (guard _); [|reflexivity]. cbn [option_bind]. destruct (flush s); [|reflexivity]. cbn [option_bind]. destruct (save l) as [[? ?]|]; reflexivity.
    - destruct Lf as [-> ->]. exists (Gapped false false), (fun s s2 => Bool.eqb flow (negb (lv s =? 0)) && (flow || (LayItems.top (lli s2) <? Z.of_N (colk flow li))%Z) && (colk flow li <=? lcol s + 1)). split; [auto|]. split; [reflexivity|].
      intros s s2 H1 H2 H3 H4. rewrite H1, H3. subst flow. destruct (flows fs =? 0) eqn:E0; cbn [negb Bool.eqb orb andb colk].
      + specialize (H4 ltac:(lia)). unfold colk. lia.
      + lia. }
  destruct S as (n & extra & Hn & S1 & S2).
  destruct (NP_item lf w fs li ls k it n extra S1 Hnp) as (ls' & E & A & A1 & A2 & A3 & A4); [|exact S2|].
  { destruct k; [exact Logic.I|..]; rewrite Hsk in Ky; destruct (Ky eq_refl) as [K1 K2]; (apply fits_room; [exact K1|]; eapply room_le; [|exact Hr]; lia). }
  eapply (W_runs _ _ _ (sp w ++ [it]) (mv x' y' false false c)).
  - rewrite sp_text. cbn [LayScan.texts flat_map]. rewrite app_nil_r. exact R.
  - apply CanonEmit.mv_core.
  - apply sp_ok. constructor; [exact Iok|constructor].
  - exact E.
  - rewrite (pend_at _ _ _ _ A). symmetry. apply app_nil_r.
  - rewrite Itk. eapply (Hq x' y'); [exact A| |apply kin_less|exact A1|rewrite A2; exact Hn|].
    + destruct k; [exact Logic.I|..]; rewrite Hsk in Ky; destruct (Ky eq_refl) as [K1 K2]; (apply room_less; eapply room_le; [|exact Hr]; lia).
    + intros Hne Hv0. apply A4; [exact Hv0|]. apply Ky. rewrite Hsk. destruct k; [congruence|reflexivity|reflexivity].
Qed.
(** ** Literal scalars *)
Lemma ends_cons ch r : RoundLiteral.ends (ch :: r) = match r with [] => is_break_c ch | _ => RoundLiteral.ends r end.
Proof. destruct r as [|d r]; [reflexivity|]. exact (RoundLiteral.ends_app [ch] (d :: r) ltac:(discriminate)). Qed.
Lemma literal_lines_state c : (1 <= em_indent c)%Z -> forall l b x y, (b = true -> x = 0%Z) ->
  exists x' y', runs (literal_loop b l) (mv x y true b c) (RoundLiteral.ltext (break_chars (em_line_break c)) (Z.to_nat (em_indent c)) b l) (Ok tt)
    (mv x' y' true (match l with [] => b | _ => RoundLiteral.ends l end) c) /\ ((match l with [] => b | _ => RoundLiteral.ends l end) = true -> x' = 0%Z).
Proof.
  intros Hi. induction l as [|ch r IH]; intros b x y Hb; cbn [literal_loop RoundLiteral.ltext].
  - exists x, y. split; [apply runs_ret|exact Hb].
  - rewrite ends_cons. destruct (is_break_c ch) eqn:Ec.
    + destruct (IH true 0%Z (y + 1)%Z ltac:(auto)) as (x' & y' & R & Hx). exists x', y'. split; [|exact Hx].
      unfold RoundLiteral.btext. refine (runs_seq _ _ _ _ _ _ _ _ (r_write_break _ _ _ _ _ _) _). exact (runs_seq _ _ _ [] _ _ _ _ (r_set_indention _ _ _ _ _ _) R).
    + assert (R1 : exists x1, runs (when b write_indent) (mv x y true b c) (if b then sps (Z.to_nat (em_indent c)) else []) (Ok tt) (mv x1 y true b c)).
      { destruct b; cbn [when].
        - rewrite (Hb eq_refl). eexists. rewrite <- (Z.sub_0_r (em_indent c)) at 1. apply r_write_indent_stay; lia.
        - eexists. apply runs_ret. }
      destruct R1 as (x1 & R1). destruct (IH false (x1 + 1)%Z y ltac:(discriminate)) as (x' & y' & R & Hx). exists x', y'. split; [|exact Hx].
      refine (runs_seq _ _ _ _ _ _ _ _ R1 _). change (ch :: RoundLiteral.ltext (break_chars (em_line_break c)) (Z.to_nat (em_indent c)) false r) with ([ch] ++ [] ++ RoundLiteral.ltext (break_chars (em_line_break c)) (Z.to_nat (em_indent c)) false r).
      refine (runs_seq _ _ _ _ _ _ _ _ (r_write_char _ _ _ _ _ _) _). exact (runs_seq _ _ _ _ _ _ _ _ (r_set_indention _ _ _ _ _ _) R).
Qed.
Lemma literal_written_state c v x y w i : v <> [] -> (1 <= em_indent c)%Z -> (1 <= em_best_indent c <= 9)%Z -> exists x' y' k,
  runs (write_literal_scalar v) (mv x y w i c) ((if negb w then [32] else []) ++ 124 :: RoundLiteral.hint_text v (Z.to_N (em_best_indent c)) ++ RoundLiteral.chomp_text (RoundLiteral.chomp_of v) ++
    break_chars (em_line_break c) ++ RoundLiteral.ltext (break_chars (em_line_break c)) (Z.to_nat (em_indent c)) true v) (Ok tt) (mv x' y' true (RoundLiteral.ends v) (set_em_open_ended k c)) /\ (RoundLiteral.ends v = true -> x' = 0%Z).
Proof.
  intros Hv Hi Hb. destruct (EmitLiteral.hints_text c v (x + (if negb w then 1 else 0) + 1)%Z y false (i && false) Hb) as (x1 & w1 & i1 & k & R1).
  destruct (literal_lines_state (set_em_open_ended k c) Hi v true 0%Z (y + 1)%Z ltac:(auto)) as (x' & y' & R2 & Hx).
  exists x', y', k. destruct v as [|v0 v]; [congruence|]. split; [|exact Hx]. unfold write_literal_scalar.
  match goal with |- runs _ _ (?a ++ 124 :: ?b) _ _ => change (124 :: b) with ([124] ++ b); rewrite (app_assoc a) end.
  refine (runs_seq _ _ _ _ _ _ _ _ (r_write_indicator _ [124] true false false _ _ _ _) _). rewrite app_assoc.
  refine (runs_seq _ _ _ _ _ _ _ _ R1 _). refine (runs_seq _ _ _ _ _ _ _ _ (r_put_break _ _ _ _ _) _). exact (runs_seq _ _ _ [] _ _ _ _ (r_set_ws _ _ _ _ _ _ _) R2).
Qed.
Lemma cadv_ltext n : forall l b x, Forall RoundLiteral.lchar l -> l <> [] -> RoundLiteral.ends l = true -> cadv x (RoundLiteral.ltext lf n b l) = 0.
Proof.
  induction l as [|ch r IH]; intros b x Hl Hne He; [congruence|]. apply Forall_cons_iff in Hl. destruct Hl as [Hc Hl]. rewrite ends_cons in He. cbn [RoundLiteral.ltext].
  assert (A : forall a t z, cadv z (a ++ t) = cadv (cadv z a) t) by (intros a t z; apply fold_left_app).
  destruct r as [|d r].
  - rewrite He. cbn [RoundLiteral.ltext]. rewrite app_nil_r. destruct (proj1 Hc He) as [-> |[-> | ->]]; [exact (proj2 (lf_break lf Hlf x))|reflexivity|reflexivity].
  - destruct (is_break_c ch).
    + rewrite A. apply IH; [exact Hl|discriminate|exact He].
    + change (ch :: RoundLiteral.ltext lf n false (d :: r)) with ([ch] ++ RoundLiteral.ltext lf n false (d :: r)). rewrite !A. apply IH; [exact Hl|discriminate|exact He].
Qed.
Lemma flows_slot fs sl : flows fs = 0 -> below fs sl -> exists s, sl = [s].
Proof. destruct fs as [|f r]; cbn [flows below]; [auto|]. destruct (blk f); [auto|lia]. Qed.
Lemma NP_lit lt w fs li ls n d v : NP w fs li ls YNo -> flows fs = 0 -> item_ok (ILit lt n d v) -> lit_col n d v (LayItems.top li) = true ->
  exists ls', lrun ls (sp w ++ [ILit lt n d v]) = Some (ls', [TScalar (RoundLiteral.read_back lt v) (if lt then SLiteral else SFolded)]) /\ Bk li ls' /\ ln ls' = Lined (RoundLiteral.ends v) (RoundLiteral.ends v) /\ lal ls' = true /\ lsl ls' = [SOff] /\ (RoundLiteral.ends v = true -> lcol ls' = 0).
Proof.
  intros H Hf (Hv & Hlc & Hd & Hn & Hal) Hcol. destruct (sp_np lf w fs li ls YNo H Logic.I) as (l1 & E1 & N1 & P1 & C1 & A1).
  replace (if w then YNo else less YNo 1) with YNo in N1 by (destruct w; reflexivity).
  destruct N1 as [H1 H2 H3 H4 [H5 H5'] H6 H7 H8 H9]. assert (Hlv : lv l1 = 0) by congruence. destruct (flows_slot _ _ Hf H3) as (s & Es).
  assert (EF : flush l1 = Some (LS 0 (lcol l1) li [] (lal l1) [s] false (ln l1))).
  { unfold flush. rewrite Hlv. cbn [N.eqb]. unfold eli in H2. rewrite H5' in H2. rewrite H2 in *. specialize (H6 Hlv).
    replace (forallb (fun i => lcol l1 <? i) (lpop l1)) with true; [replace (_ <=? _)%Z with true by lia; cbn [andb]; rewrite H5', Es; reflexivity|].
    symmetry. destruct H7 as [-> |(_ & _ & H7)]; [reflexivity|]. apply forallb_forall. intros z Hz. rewrite Forall_forall in H7. specialize (H7 z Hz). lia. }
  rewrite Es in H5. cbn in H5. rewrite orb_false_r in H5. set (tx := itext (ILit lt n d v)).
  assert (Hb : has_break tx = true).
  { subst tx. cbn [LayItems.itext]. change ((if lt then 124 else 62) :: ?a) with ([if lt then 124 else 62] ++ a). rewrite !LayKeys.hb_app, (proj1 (lf_break lf Hlf 0)). rewrite !orb_true_r. reflexivity. }
  exists (LS 0 (cadv (lcol l1) tx) li [] true [SOff] false (Lined (RoundLiteral.ends v) (RoundLiteral.ends v))). split; [|split; [|split; [reflexivity|split; [reflexivity|split; [reflexivity|]]]]].
  - change [TScalar (RoundLiteral.read_back lt v) (if lt then SLiteral else SFolded)] with ([] ++ [TScalar (RoundLiteral.read_back lt v) (if lt then SLiteral else SFolded)]). eapply (lrun_join lf (sp w) ls [ILit lt n d v] l1 []); [exact E1|]. cbn [LayScan.lrun LayItems.lstep]. rewrite H4, Hlv. cbn [N.eqb andb guard option_bind]. rewrite EF. cbn [option_bind].
    unfold unsave. cbn [lsl lsoon]. rewrite H5. cbn [orb option_bind]. unfold with_slots. cbn [lv lcol lli lpop lal ln]. rewrite Hcol. cbn [guard option_bind]. unfold walk. fold tx. rewrite Hb. cbn [lsl live existsb is_live orb option_bind map then_ lv lcol lli lpop lal lsoon ln]. reflexivity.
  - constructor; cbn [lv lli lsl lpop]; [reflexivity|reflexivity|eauto|constructor|split; reflexivity].
  - intros He. cbn [lcol]. subst tx. cbn [LayItems.itext]. change ((if lt then 124 else 62) :: ?a) with ([if lt then 124 else 62] ++ a). unfold cadv. rewrite !fold_left_app. apply (cadv_ltext _ _ _ _ Hlc Hv He).
Qed.
(** The places behind a node of a block collection. *)
Definition after (w i : bool) (x : Z) (ls : lstate) : Prop :=
  i = false /\ may_break ls = true \/ i = true /\ w = true /\ x = 0%Z /\ (exists cl, ln ls = Lined cl true) /\ lcol ls = 0 /\ lal ls = true /\ lsl ls = [SOff].
(** A block scalar: [p] are the lines that are written. *)
Lemma block_written u (lt : bool) c v x y w i : v <> [] -> Spec_Styles.block_text u v -> (lt = false -> Spec_Folded.always_folds_well v) ->
  (1 <= em_indent c)%Z -> (1 <= em_best_indent c <= 9)%Z -> exists p x' y' k,
  runs (process_scalar v (if lt then SLiteral else SFolded)) (mv x y w i c) ((if negb w then [32] else []) ++ (if lt then 124 else 62) :: RoundLiteral.hint_text p (Z.to_N (em_best_indent c)) ++ RoundLiteral.chomp_text (RoundLiteral.chomp_of p) ++
    break_chars (em_line_break c) ++ RoundLiteral.ltext (break_chars (em_line_break c)) (Z.to_nat (em_indent c)) true p) (Ok tt) (mv x' y' true (RoundLiteral.ends p) (set_em_open_ended k c)) /\ (RoundLiteral.ends p = true -> x' = 0%Z) /\
  p <> [] /\ Forall RoundLiteral.lchar p /\ RoundLiteral.read_back lt p = v /\ RoundLiteral.hinted p = RoundLiteral.hinted v /\ (forall P : char -> Prop, P 10 -> Forall P v -> Forall P p).
Proof.
  intros Hv Hbt Hf Hi Hb. destruct lt.
  - destruct (literal_written_state c v x y w i Hv Hi Hb) as (x' & y' & k & R & Hx). exists v, x', y', k. split; [apply runs_get; [reflexivity|]; exact R|]. split; [exact Hx|]. split; [exact Hv|]. split; [apply (EmitLiteral.block_lchar u), Hbt|]. split; [apply RoundLiteral.read_back_lit|auto].
  - destruct (EmitFolded.folded_written_state c u v x y w i Hv Hbt Hi Hb) as (p & x' & y' & k & R & Hx & F1 & F2 & F3 & F4 & F5 & F6); [apply EmitFolded.folds_any, Hf; reflexivity|].
    exists p, x', y', k. split; [apply runs_get; [reflexivity|]; exact R|]. auto 10.
Qed.
Lemma W_block u lt v fs li x y w i c ls (Q : post) : (1 <= em_indent c)%Z -> (1 <= em_best_indent c <= 9)%Z -> break_chars (em_line_break c) = lf ->
  v <> [] -> Spec_Styles.block_text u v -> (lt = false -> Spec_Folded.always_folds_well v) -> Forall (fun ch => allowed_char ch = true) v -> flows fs = 0 ->
  lit_col (Z.to_N (em_indent c)) (Z.to_N (em_best_indent c)) v (LayItems.top li) = true -> NP w fs li ls YNo ->
  (forall x' y' w' i' k ls', Bk li ls' -> after w' i' x' ls' -> Q [TScalar v (if lt then SLiteral else SFolded)] (mv x' y' w' i' (set_em_open_ended k c)) ls') ->
  W (process_scalar v (if lt then SLiteral else SFolded)) (mv x y w i c) ls Q.
Proof.
  intros Hi Hb Hl Hv Hbt Hfw Hal Hf Hcol Hnp Hq. destruct (block_written u lt c v x y w i Hv Hbt Hfw Hi Hb) as (p & x' & y' & k & R & Hx & Hp & Hlp & Hrb & Hh & HP). rewrite Hl in R.
  set (it := ILit lt (Z.to_N (em_indent c)) (Z.to_N (em_best_indent c)) p).
  assert (Iok : item_ok it) by (split; [exact Hp|]; split; [exact Hlp|]; split; [lia|]; split; [lia|apply HP; [reflexivity|exact Hal]]).
  assert (Hcol' : lit_col (Z.to_N (em_indent c)) (Z.to_N (em_best_indent c)) p (LayItems.top li) = true) by (unfold lit_col in *; rewrite Hh; exact Hcol).
  destruct (NP_lit lt w fs li ls _ _ p Hnp Hf Iok Hcol') as (ls' & E & B & Ln & La & Sl & Lc). rewrite Hrb in E.
  eapply (W_runs _ _ _ (sp w ++ [it])); [| | |exact E| |apply (Hq x' y' true (RoundLiteral.ends p) k ls' B)].
  - rewrite sp_text. cbn [it LayScan.texts flat_map LayItems.itext]. rewrite app_nil_r. replace (N.to_nat (Z.to_N (em_indent c))) with (Z.to_nat (em_indent c)) by lia. exact R.
  - keeps_core.
  - apply sp_ok. constructor; [exact Iok|constructor].
  - assert (P1 : pend ls = []) by (unfold pend; rewrite (proj2 (np_key _ _ _ _ _ Hnp)); reflexivity). assert (P2 : pend ls' = []) by (unfold pend; rewrite (proj2 (bk_key _ _ B)); reflexivity).
    rewrite P1, P2. reflexivity.
  - unfold after, may_break. rewrite Ln. destruct (RoundLiteral.ends p) eqn:Ee; [right|left; auto]. split; [reflexivity|]. split; [reflexivity|]. split; [auto|]. split; [eauto|]. split; [auto|]. split; [exact La|exact Sl].
Qed.
End lay.
