(** CanonEmit.v -- the items the emitter writes in canonical mode, and their tokens. *)
From Coq Require Import Lia ZifyBool ZifyNat ZifyN Bool.
From Verif Require Import Base Utf Chars State Reader Scanner Wp ScanFacts RoundScan EState Emitter Document Api EmitText EmitScalar EmitQuoted Spec_Events EventFacts Spec_EmitNames EmitGrammar CanonLex CanonBody CanonItems.
Open Scope N_scope.

Section canon.
Variable lf : str.
Hypothesis Hlf : lf_ok lf.

(** ** Judgement: [m] writes items that may stand here *)
Definition W (m : M est unit) (c : est) (ls : lstate) (Q : list token_data -> est -> lstate -> Prop) : Prop :=
  is_core c -> exists its c' ls', runs m c (texts lf its) (Ok tt) c' /\ is_core c' /\ Forall (item_ok lf) its /\ lrun ls its = Some ls' /\ Q (toks its) c' ls'.
Lemma W_ret c ls (Q : list token_data -> est -> lstate -> Prop) : Q [] c ls -> W (ret tt) c ls Q.
Proof. intros H Hc. exists [], c, ls. split; [apply runs_ret|]. auto. Qed.
Lemma W_conseq m c ls (Q Q' : list token_data -> est -> lstate -> Prop) : W m c ls Q -> (forall t c' ls', Q t c' ls' -> Q' t c' ls') -> W m c ls Q'.
Proof. intros H HQ Hc. destruct (H Hc) as (its & c' & ls' & R & Hc' & Hi & Hl & Hq). exists its, c', ls'. auto 10. Qed.
Lemma W_seq m k c ls (Q : list token_data -> est -> lstate -> Prop) :
  W m c ls (fun t c1 ls1 => W k c1 ls1 (fun t' c2 ls2 => Q (t ++ t') c2 ls2)) -> W (m ;; k) c ls Q.
Proof.
  intros H Hc. destruct (H Hc) as (its & c1 & ls1 & R & Hc1 & Hi & Hl & H2). destruct (H2 Hc1) as (its2 & c2 & ls2 & R2 & Hc2 & Hi2 & Hl2 & Hq).
  exists (its ++ its2), c2, ls2. rewrite texts_app, toks_app, lrun_app, Hl. split; [exact (runs_seq _ _ _ _ _ _ _ _ R R2)|]. split; [exact Hc2|]. split; [apply Forall_app; auto|]. auto.
Qed.
Lemma W_get k c ls Q : (forall s, k s = k (core s)) -> W (k c) c ls Q -> W (bind get k) c ls Q.
Proof. intros Hk H Hc. destruct (H Hc) as (its & c1 & ls1 & R & H'). exists its, c1, ls1. split; [apply runs_get; [exact Hk|exact R]|exact H']. Qed.
Lemma W_modify f c ls (Q : list token_data -> est -> lstate -> Prop) : inner f -> (is_core c -> is_core (f c)) -> Q [] (f c) ls -> W (modify f) c ls Q.
Proof. intros Hf Hc' H Hc. exists [], (f c), ls. split; [apply runs_modify'; [exact Hf|exact (Hc' Hc)]|]. auto. Qed.
Lemma W_when b m c ls (Q : list token_data -> est -> lstate -> Prop) : (b = true -> W m c ls Q) -> (b = false -> Q [] c ls) -> W (when b m) c ls Q.
Proof. intros H1 H2. destruct b; [exact (H1 eq_refl)|apply W_ret, H2; reflexivity]. Qed.
(** From a run. *)
Lemma W_runs m c ls its c' ls' (Q : list token_data -> est -> lstate -> Prop) : runs m c (texts lf its) (Ok tt) c' -> (is_core c -> is_core c') -> Forall (item_ok lf) its -> lrun ls its = Some ls' ->
  Q (toks its) c' ls' -> W m c ls Q.
Proof. intros R Hc' Hi Hl Hq Hc. exists its, c', ls'. auto 10. Qed.
Lemma mv_core x y w i c x' y' w' i' : is_core (mv x y w i c) -> is_core (mv x' y' w' i' c).
Proof. intros H. exact (is_core_mv _ _ _ _ _ H _ _ _ _). Qed.
Lemma W_fix m c ls Q : (forall x y w i, c = mv x y w i c -> W m (mv x y w i c) ls Q) -> W m c ls Q.
Proof. intros H. rewrite (mv_id c). apply H, mv_id. Qed.

(** ** Writing *)
Definition spaced (b : bool) (ls : lstate) : lstate := if b then LS (lv ls) false (lnl ls) Free else ls.
Definition sp (b : bool) : list item := if b then [ISp] else [].
Lemma sp_run b ls its : lrun ls (sp b ++ its) = lrun (spaced b ls) its. Proof. destruct b; reflexivity. Qed.
Lemma sp_text b its : texts lf (sp b ++ its) = (if b then [cSP] else []) ++ texts lf its. Proof. destruct b; reflexivity. Qed.
Lemma sp_toks b its : toks (sp b ++ its) = toks its. Proof. destruct b; reflexivity. Qed.
Lemma sp_ok b its : Forall (item_ok lf) its -> Forall (item_ok lf) (sp b ++ its). Proof. intros H. destruct b; [constructor; [exact I|exact H]|exact H]. Qed.

Lemma W_indicator it l nw iw ii x y w i c ls ls' (Q : list token_data -> est -> lstate -> Prop) : itext lf it = l -> item_ok lf it -> lstep (spaced (nw && negb w) ls) it = Some ls' ->
  (forall x', Q (itok it) (mv x' y iw (i && ii) c) ls') -> W (write_indicator l nw iw ii) (mv x y w i c) ls Q.
Proof.
  intros Hl Hi Hs Hq. eapply (W_runs _ _ _ (sp (nw && negb w) ++ [it])).
  - rewrite sp_text. cbn [texts flat_map]. rewrite Hl, app_nil_r. apply r_write_indicator.
  - apply mv_core.
  - apply sp_ok. constructor; [exact Hi|constructor].
  - rewrite sp_run. cbn [lrun]. rewrite Hs. reflexivity.
  - rewrite sp_toks. cbn [toks flat_map]. rewrite app_nil_r. apply Hq.
Qed.
Lemma run_spaces n : forall v b, lrun (LS v b true Free) (repeat ISp n) = Some (LS v (match n with O => b | _ => false end) true Free).
Proof. induction n as [|n IH]; intros v b; cbn [repeat lrun lstep lv lnl]; [reflexivity|]. rewrite IH. destruct n; reflexivity. Qed.
Lemma text_spaces n : texts lf (repeat ISp n) = sps n.
Proof. induction n as [|n IH]; [reflexivity|]. cbn [repeat texts flat_map itext app]. fold (texts lf (repeat ISp n)). rewrite IH. reflexivity. Qed.
Lemma toks_spaces n : toks (repeat ISp n) = [].
Proof. induction n as [|n IH]; [reflexivity|exact IH]. Qed.
Lemma spaces_ok n : Forall (item_ok lf) (repeat ISp n).
Proof. induction n; constructor; [exact I|assumption]. Qed.
(** [write_indent] after something else than an indentation. *)
Lemma r_indent_break c x y w : runs write_indent (mv x y w false c) (break_chars (em_line_break c) ++ sps (Z.to_nat (em_indent c))) (Ok tt) (mv (Z.max (em_indent c) 0) (y + 1) true true c).
Proof.
  unfold write_indent. apply runs_get; [reflexivity|]. change (em_indent (mv x y w false c)) with (em_indent c).
  change (em_indention (mv x y w false c)) with false. cbn [negb orb when]. cbv zeta.
  replace (if (0 <=? em_indent c)%Z then em_indent c else 0%Z) with (Z.max (em_indent c) 0) by (destruct (0 <=? em_indent c)%Z eqn:E; lia).
  refine (runs_seq _ _ _ _ (mv 0 (y + 1) w false c) _ _ _ (r_put_break _ _ _ _ _) _).
  apply runs_get; [reflexivity|]. change (em_column (mv 0 (y + 1) w false c)) with 0%Z. rewrite Z.sub_0_r.
  replace (Z.to_nat (Z.max (em_indent c) 0)) with (Z.to_nat (em_indent c)) by lia.
  refine (runs_conseq _ _ _ _ _ _ _ _ (runs_seq _ _ _ _ _ [] _ _ (r_put_spaces _ _ _ _ _ _) _) (app_nil_r _) eq_refl eq_refl).
  replace (0 + Z.of_nat (Z.to_nat (em_indent c)))%Z with (Z.max (em_indent c) 0) by lia. apply r_set_ws.
Qed.
Lemma W_indent c x y w ls (Q : list token_data -> est -> lstate -> Prop) : break_chars (em_line_break c) = lf ->
  (forall y', Q [] (mv (Z.max (em_indent c) 0) y' true true c) (LS (lv ls) (em_indent c <=? 0)%Z true Free)) -> W write_indent (mv x y w false c) ls Q.
Proof.
  intros Hl Hq. eapply (W_runs _ _ _ (IBr :: repeat ISp (Z.to_nat (em_indent c)))).
  - cbn [texts flat_map itext]. fold (texts lf (repeat ISp (Z.to_nat (em_indent c)))). rewrite text_spaces, <- Hl. apply r_indent_break.
  - apply mv_core.
  - constructor; [exact I|apply spaces_ok].
  - cbn [lrun lstep]. apply run_spaces.
  - cbn [toks flat_map itok app]. fold (toks (repeat ISp (Z.to_nat (em_indent c)))). rewrite toks_spaces.
    replace (match Z.to_nat (em_indent c) with O => true | S _ => false end) with (em_indent c <=? 0)%Z; [apply Hq|]. destruct (Z.to_nat (em_indent c)) eqn:E; lia.
Qed.
(** At the beginning of a line there is nothing to write. *)
Lemma W_indent_none c y ls (Q : list token_data -> est -> lstate -> Prop) : (em_indent c <= 0)%Z -> Q [] (mv 0 y true true c) ls -> W write_indent (mv 0 y true true c) ls Q.
Proof.
  intros Hi Hq. apply (W_runs _ _ _ [] (mv 0 y true true c) ls); [|auto|constructor|reflexivity|exact Hq].
  unfold write_indent. apply runs_get; [reflexivity|]. change (em_indent (mv 0 y true true c)) with (em_indent c).
  change (em_indention (mv 0 y true true c)) with true. change (em_whitespace (mv 0 y true true c)) with true. change (em_column (mv 0 y true true c)) with 0%Z. cbv zeta.
  replace (if (0 <=? em_indent c)%Z then em_indent c else 0%Z) with 0%Z by (destruct (0 <=? em_indent c)%Z eqn:E; lia). cbn [negb orb andb Z.ltb Z.compare when Z.eqb].
  refine (runs_seq _ _ _ [] (mv 0 y true true c) [] _ _ (runs_ret _ _) _).
  apply runs_get; [reflexivity|]. change (em_column (mv 0 y true true c)) with 0%Z. cbn [Z.sub Z.opp Z.add Z.to_nat put_spaces].
  refine (runs_seq _ _ _ [] (mv 0 y true true c) [] _ _ (runs_ret _ _) _). apply r_set_ws.
Qed.
(** A name. *)
Lemma r_anchor a x y w i c : runs (write_anchor a) (mv x y w i c) a (Ok tt) (mv (x + Z.of_nat (length a)) y false false c).
Proof.
  refine (runs_conseq _ _ _ _ _ _ _ _ (runs_seq _ _ _ a _ [] _ _ (r_write_str _ _ _ _ _ _) _) (app_nil_r _) eq_refl eq_refl). apply r_set_ws.
Qed.
Lemma W_name a alias x y w i c ls ls' (Q : list token_data -> est -> lstate -> Prop) : valid_name a ->
  lstep (spaced (negb w) ls) (IName alias a) = Some ls' ->
  (forall x', Q [if alias then TAlias a else TAnchor a] (mv x' y false false c) ls') ->
  W (process_anchor (Some (a, alias))) (mv x y w i c) ls Q.
Proof.
  intros [Ha1 Ha2] Hs Hq. eapply (W_runs _ _ _ (sp (negb w) ++ [IName alias a]) (mv (x + (if negb w then 1 else 0) + 1 + Z.of_nat (length a)) y false false c)).
  - rewrite sp_text. cbn [texts flat_map itext]. rewrite app_nil_r. cbn [process_anchor].
    change ((if alias then 42 else 38) :: a) with ([if alias then 42 else 38] ++ a). rewrite app_assoc.
    destruct alias.
    + exact (runs_seq _ _ _ _ _ _ _ _ (r_write_indicator c [cSTAR] true false false x y w i) (r_anchor _ _ _ _ _ _)).
    + exact (runs_seq _ _ _ _ _ _ _ _ (r_write_indicator c [cAMP] true false false x y w i) (r_anchor _ _ _ _ _ _)).
  - apply mv_core.
  - apply sp_ok. constructor; [split; [exact Ha1|apply alpha_names, Ha2]|constructor].
  - rewrite sp_run. cbn [lrun]. rewrite Hs. reflexivity.
  - rewrite sp_toks. cbn [toks flat_map itok app]. apply Hq.
Qed.
(** Tags *)
Lemma ascii_utf8 ch : ch < 128 -> encode_utf8_char ch = [ch].
Proof. intros H. unfold encode_utf8_char. replace (ch <? 128) with true by lia. reflexivity. Qed.
Lemma r_uri v : forall x y w i c, ascii v -> exists x', runs (iterM (fun c => if tag_uri_char c then write_char c
    else iterM (fun b => put cPCT ;; put (hex_upper (b / 16)) ;; put (hex_upper (b mod 16))) (encode_utf8_char c)) v) (mv x y w i c) (uri v) (Ok tt) (mv x' y w i c).
Proof.
  induction v as [|ch v IH]; intros x y w i c Ha; [exists x; apply runs_ret|]. inversion Ha as [|? ? Hch Hv]; subst. cbn [iterM]. unfold uri. cbn [flat_map]. fold (uri v). unfold uri1.
  destruct (tag_uri_char ch).
  - destruct (IH (x + 1)%Z y w i c Hv) as (x' & R). exists x'. exact (runs_seq _ _ _ [ch] _ _ _ _ (r_write_char _ _ _ _ _ _) R).
  - destruct (IH (x + 1 + 1 + 1)%Z y w i c Hv) as (x' & R). exists x'. rewrite (ascii_utf8 ch Hch). cbn [iterM].
    refine (runs_seq _ _ _ [37; hex_upper (ch / 16); hex_upper (ch mod 16)] _ _ _ _ _ R).
    refine (runs_seq _ _ _ [37; hex_upper (ch / 16); hex_upper (ch mod 16)] _ [] _ _ _ (runs_ret _ _)).
    refine (runs_seq _ _ _ [37] _ [hex_upper (ch / 16); hex_upper (ch mod 16)] _ _ (r_put _ _ _ _ _ _) _).
    refine (runs_seq _ _ _ [hex_upper (ch / 16)] _ [hex_upper (ch mod 16)] _ _ (r_put _ _ _ _ _ _) _). apply r_put.
Qed.
Lemma r_tag_content v nw x y w i c : ascii v -> exists x', runs (write_tag_content v nw) (mv x y w i c) ((if nw && negb w then [cSP] else []) ++ uri v) (Ok tt) (mv x' y false false c).
Proof.
  intros Ha. destruct (r_uri v (x + if nw && negb w then 1 else 0)%Z y w i c Ha) as (x' & R). exists x'.
  unfold write_tag_content. apply runs_get; [reflexivity|]. change (em_whitespace (mv x y w i c)) with w.
  eapply (runs_seq _ _ _ _ (mv (x + (if nw && negb w then 1 else 0)) y w i c)).
  { destruct (nw && negb w); [apply r_put|]. rewrite Z.add_0_r. apply runs_ret. }
  refine (runs_conseq _ _ _ _ _ _ _ _ (runs_seq _ _ _ _ _ [] _ _ R _) (app_nil_r _) eq_refl eq_refl). apply r_set_ws.
Qed.
Lemma r_tag_handle h x y w i c : runs (write_tag_handle h) (mv x y w i c) ((if negb w then [cSP] else []) ++ h) (Ok tt) (mv (x + (if negb w then 1 else 0) + Z.of_nat (length h)) y false false c).
Proof.
  unfold write_tag_handle. apply runs_get; [reflexivity|]. change (em_whitespace (mv x y w i c)) with w.
  eapply (runs_seq _ _ _ _ (mv (x + (if negb w then 1 else 0)) y w i c)).
  { destruct (negb w); [apply r_put|]. rewrite Z.add_0_r. apply runs_ret. }
  refine (runs_conseq _ _ _ _ _ _ _ _ (runs_seq _ _ _ h _ [] _ _ (r_write_str _ _ _ _ _ _) _) (app_nil_r _) eq_refl eq_refl). apply r_set_ws.
Qed.
Definition form_of (h x : str) : tag_form := if is_empty h then FVerbatim x else if is_empty x then FBang else FShort h x.
Lemma W_tag h x0 x y w i c ls ls' (Q : list token_data -> est -> lstate -> Prop) : form_ok (form_of h x0) -> (x0 = [] -> h = lit "!") ->
  lstep (spaced (negb w) ls) (ITag (form_of h x0)) = Some ls' ->
  (forall x', Q [form_token (form_of h x0)] (mv x' y false false c) ls') ->
  W (process_tag (Some (h, x0))) (mv x y w i c) ls Q.
Proof.
  intros Hf Hh Hs Hq.
  assert (R : exists x', runs (process_tag (Some (h, x0))) (mv x y w i c) ((if negb w then [cSP] else []) ++ form_text (form_of h x0)) (Ok tt) (mv x' y false false c)).
  { cbn [process_tag]. unfold form_of in *. destruct h as [|h0 h]; cbn [is_empty andb] in *.
    - destruct Hf as [Hf1 Hf2]. destruct x0 as [|x1 x0]; [congruence|]. cbn [is_empty].
      destruct (r_tag_content (x1 :: x0) false (x + (if negb w then 1 else 0) + 2)%Z y false (i && false) c Hf2) as (x' & R). eexists.
      change (form_text (FVerbatim (x1 :: x0))) with ([33; 60] ++ uri (x1 :: x0) ++ [62]). rewrite app_assoc.
      refine (runs_seq _ _ _ _ _ _ _ _ (r_write_indicator c [cBANG; cLT] true false false x y w i) _).
      refine (runs_seq _ _ _ _ _ _ _ _ R _). apply (r_write_indicator c [cGT] false false false).
    - destruct x0 as [|x1 x0]; cbn [is_empty negb when] in *.
      + rewrite (Hh eq_refl). eexists. rewrite <- (app_nil_r (_ ++ _)). refine (runs_seq _ _ _ _ _ _ _ _ (r_tag_handle _ _ _ _ _ _) (runs_ret _ _)).
      + destruct Hf as (_ & _ & Hf2 & _). change (form_text (FShort (h0 :: h) (x1 :: x0))) with ((h0 :: h) ++ uri (x1 :: x0)). rewrite app_assoc.
        destruct (r_tag_content (x1 :: x0) false (x + (if negb w then 1 else 0) + Z.of_nat (length (h0 :: h)))%Z y false false c Hf2) as (x' & R). exists x'.
        exact (runs_seq _ _ _ _ _ _ _ _ (r_tag_handle _ _ _ _ _ _) R). }
  destruct R as (x' & R). eapply (W_runs _ _ _ (sp (negb w) ++ [ITag (form_of h x0)])).
  - rewrite sp_text. cbn [texts flat_map itext]. rewrite app_nil_r. exact R.
  - apply mv_core.
  - apply sp_ok. constructor; [exact Hf|constructor].
  - rewrite sp_run. cbn [lrun]. rewrite Hs. reflexivity.
  - rewrite sp_toks. apply Hq.
Qed.
(** A scalar. *)
Lemma W_quoted v x y w i c ls ls' (Q : list token_data -> est -> lstate -> Prop) : Forall (fun ch : char => is_scalar ch = true) v -> (1 <= em_indent c)%Z -> break_chars (em_line_break c) = lf ->
  lstep (spaced (negb w) ls) (IQuoted []) = Some ls' ->
  (forall x' y', Q [TScalar v SDouble] (mv x' y' false false c) ls') ->
  W (write_double_quoted_scalar v true) (mv x y w i c) ls Q.
Proof.
  intros Hv Hi Hl Hs Hq.
  destruct (double_text c true Hi (length v) v false true (x + (if negb w then 1 else 0) + 1)%Z y false (i && false)) as (ats & x' & y' & w' & i' & R & F & D & C); [lia|exact Hv|rewrite andb_false_r; discriminate|].
  eapply (W_runs _ _ _ (sp (negb w) ++ [IQuoted ats]) (mv (x' + 0 + 1) y' false false c)).
  - rewrite sp_text. cbn [texts flat_map itext]. rewrite app_nil_r. unfold write_double_quoted_scalar.
    change (34 :: flat ats ++ [34]) with ([34] ++ flat ats ++ [34]). rewrite app_assoc.
    refine (runs_seq _ _ _ _ _ _ _ _ (r_write_indicator _ [34] true false false _ _ _ _) _). refine (runs_seq _ _ _ _ _ _ _ _ R _).
    rewrite <- (app_nil_r [34]). refine (runs_seq _ _ _ _ _ _ _ _ (r_write_indicator _ [34] false false false _ _ _ _) _). apply r_set_ws.
  - apply mv_core.
  - apply sp_ok. constructor; [|constructor]. rewrite <- Hl. split; [exact F|]. intros z. apply C; lia.
  - rewrite sp_run. cbn [lrun]. change (lstep (spaced (negb w) ls) (IQuoted ats)) with (lstep (spaced (negb w) ls) (IQuoted [])). rewrite Hs. reflexivity.
  - rewrite sp_toks. cbn [toks flat_map itok app]. rewrite (D g0); [apply Hq|split; reflexivity|split; [reflexivity|discriminate]].
Qed.

(** ** Control *)
Lemma is_core_iff c : is_core c <-> em_writer c = None /\ em_buffer c = [] /\ em_raw c = [] /\ em_encoding c = EncAny.
Proof.
  unfold is_core. split.
  - intros H. rewrite <- H. repeat split; reflexivity.
  - intros (H1 & H2 & H3 & H4). destruct c. cbn in *. subst. reflexivity.
Qed.
Local Ltac keeps_core := let H := fresh in intros H; apply is_core_iff in H; apply is_core_iff; exact H.
Lemma W_set f x y w i c ls (Q : list token_data -> est -> lstate -> Prop) : inner f -> (is_core (mv x y w i c) -> is_core (f (mv x y w i c))) ->
  Q [] (f (mv x y w i c)) ls -> W (modify f) (mv x y w i c) ls Q.
Proof. apply W_modify. Qed.
Lemma W_push a x y w i c ls (Q : list token_data -> est -> lstate -> Prop) : Q [] (mv x y w i (set_em_states (a :: em_states c) c)) ls -> W (push_estate a) (mv x y w i c) ls Q.
Proof. intros H. unfold push_estate. apply W_set; [inner|keeps_core|exact H]. Qed.
Lemma W_goto a x y w i c ls (Q : list token_data -> est -> lstate -> Prop) : Q [] (mv x y w i (set_em_state a c)) ls -> W (goto_estate a) (mv x y w i c) ls Q.
Proof. intros H. unfold goto_estate. apply W_set; [inner|keeps_core|exact H]. Qed.
Lemma W_flow n x y w i c ls (Q : list token_data -> est -> lstate -> Prop) : Q [] (mv x y w i (set_em_flow_level (em_flow_level c + n) c)) ls -> W (add_flow_level n) (mv x y w i c) ls Q.
Proof. intros H. unfold add_flow_level. apply W_set; [inner|keeps_core|exact H]. Qed.
Lemma W_pop a r x y w i c ls (Q : list token_data -> est -> lstate -> Prop) : em_states c = a :: r -> Q [] (mv x y w i (set_em_state a (set_em_states r c))) ls -> W pop_estate (mv x y w i c) ls Q.
Proof.
  intros Hs H. apply (W_runs _ _ _ [] (mv x y w i (set_em_state a (set_em_states r c))) ls); [|keeps_core|constructor|reflexivity|exact H].
  apply runs_core. intros Hc.
  assert (E : pop_estate (mv x y w i c) = (Ok tt, mv x y w i (set_em_state a (set_em_states r c)))) by (unfold pop_estate; change (em_states (mv x y w i c)) with (em_states c); rewrite Hs; reflexivity).
  eapply runs_conseq; [apply (runs_raw pop_estate)|reflexivity|rewrite E; reflexivity|].
  - intros s. unfold pop_estate. change (em_states (core s)) with (em_states s). destruct (em_states s); repeat split.
  - rewrite E. cbn [snd]. apply is_core_iff in Hc. change (core (mv x y w i (set_em_state a (set_em_states r c))) = mv x y w i (set_em_state a (set_em_states r c))).
    apply (is_core_iff (mv x y w i (set_em_state a (set_em_states r c)))). exact Hc.
Qed.
Lemma W_pop_indent a r x y w i c ls (Q : list token_data -> est -> lstate -> Prop) : em_indents c = a :: r -> Q [] (mv x y w i (set_em_indent a (set_em_indents r c))) ls -> W pop_indent (mv x y w i c) ls Q.
Proof.
  intros Hs H. apply (W_runs _ _ _ [] (mv x y w i (set_em_indent a (set_em_indents r c))) ls); [|keeps_core|constructor|reflexivity|exact H].
  apply runs_core. intros Hc.
  assert (E : pop_indent (mv x y w i c) = (Ok tt, mv x y w i (set_em_indent a (set_em_indents r c)))) by (unfold pop_indent; change (em_indents (mv x y w i c)) with (em_indents c); rewrite Hs; reflexivity).
  eapply runs_conseq; [apply (runs_raw pop_indent)|reflexivity|rewrite E; reflexivity|].
  - intros s. unfold pop_indent. change (em_indents (core s)) with (em_indents s). destruct (em_indents s); repeat split.
  - rewrite E. cbn [snd]. apply is_core_iff in Hc. change (core (mv x y w i (set_em_indent a (set_em_indents r c))) = mv x y w i (set_em_indent a (set_em_indents r c))).
    apply (is_core_iff (mv x y w i (set_em_indent a (set_em_indents r c)))). exact Hc.
Qed.
Lemma W_increase x y w i c ls (Q : list token_data -> est -> lstate -> Prop) : (2 <= em_best_indent c)%Z ->
  (forall j, (2 <= j)%Z -> Q [] (mv x y w i (set_em_indent j (set_em_indents (em_indent c :: em_indents c) c))) ls) -> W (increase_indent true false) (mv x y w i c) ls Q.
Proof.
  intros Hb H. unfold increase_indent. apply W_set.
  - intros s. cbv zeta. cbn [negb]. change (em_indent (set_em_indents (em_indent (core s) :: em_indents (core s)) (core s))) with (em_indent s).
    change (em_indent (set_em_indents (em_indent s :: em_indents s) s)) with (em_indent s). destruct (em_indent s <? 0)%Z; repeat split.
  - cbv zeta. cbn [negb]. destruct (_ <? 0)%Z; keeps_core.
  - cbv zeta. cbn [negb]. set (q := mv x y w i c). change (em_indent (set_em_indents (em_indent q :: em_indents q) q)) with (em_indent c). destruct (em_indent c <? 0)%Z eqn:E.
    + apply (H (em_best_indent c)). exact Hb.
    + apply (H (em_indent c + em_best_indent c)%Z). lia.
Qed.
Lemma W_val {A} (m : M est A) a k c ls Q : (forall s, core s = c -> m s = (Ok a, s)) -> W (k a) c ls Q -> W (bind m k) c ls Q.
Proof.
  intros Hm H Hc. destruct (H Hc) as (its & c' & ls' & R & H'). exists its, c', ls'. split; [|exact H'].
  intros s e t Hs Hh. specialize (R s e t Hs Hh). unfold outcome in *. unfold bind. rewrite (Hm s Hs). exact R.
Qed.

(** ** Analysis *)
Definition tag_an (tds : list tag_directive) (t : option str) (o : option (str * str)) : Prop :=
  match t, o with
  | None, None => True
  | Some t, Some (h, x) => h = [] /\ x = t \/ exists td, In td tds /\ h = td_handle td /\ t = td_prefix td ++ x /\ x <> []
  | _, _ => False
  end.
Lemma split_bytes_app (l : str) : forall n a b, split_bytes n l = Some (a, b) -> l = a ++ b /\ n = str_len a.
Proof.
  induction l as [|c l IH]; intros n a b; cbn [split_bytes].
  - destruct (n =? 0) eqn:E; [|discriminate]. intros [= <- <-]. split; [reflexivity|]. cbn. lia.
  - destruct (n =? 0) eqn:E; [intros [= <- <-]; split; [reflexivity|cbn; lia]|]. destruct (n <? len_utf8 c) eqn:E2; [discriminate|].
    destruct (split_bytes (n - len_utf8 c) l) as [[a' b']|] eqn:E3; [|discriminate]. intros [= <- <-]. destruct (IH _ _ _ E3) as [-> Hn]. split; [reflexivity|].
    rewrite str_len_cons, <- Hn. lia.
Qed.
Lemma tag_loop (t : str) tds : ascii t -> exists h x, analyze_tag_loop t tds = ret (h, x) /\ tag_an tds (Some t) (Some (h, x)).
Proof.
  intros Ht. induction tds as [|td r IH]; cbn [analyze_tag_loop]; [exists [], t; split; [reflexivity|left; auto]|].
  assert (IH' : exists h x, analyze_tag_loop t r = ret (h, x) /\ tag_an (td :: r) (Some t) (Some (h, x))).
  { destruct IH as (h & x & E & [H|(u & Hu & H)]); exists h, x; (split; [exact E|]); [left; exact H|right; exists u; split; [right; exact Hu|exact H]]. }
  destruct (str_len (td_prefix td) <? str_len t) eqn:E; [|exact IH'].
  destruct (split_bytes (str_len (td_prefix td)) t) as [[a b]|] eqn:Es; [|exfalso; apply (split_ascii t Ht (str_len (td_prefix td))); [lia|exact Es]].
  destruct (str_eqb (td_prefix td) a) eqn:Ea; [|exact IH'].
  apply ScanFacts.str_eqb_eq in Ea. apply split_bytes_app in Es. destruct Es as [-> Hl]. exists (td_handle td), b. split; [reflexivity|]. right. exists td. split; [left; reflexivity|].
  split; [reflexivity|]. split; [rewrite Ea; reflexivity|]. intros ->. rewrite app_nil_r in E. lia.
Qed.
Definition an_ok (tds : list tag_directive) (d : event_data) (an : analysis) : Prop :=
  match d with
  | EvAlias a => an_anchor_a an = Some (a, true)
  | EvScalar a t v _ _ _ => an_anchor_a an = option_map (fun a => (a, false)) a /\ tag_an tds t (an_tag an) /\ exists sa, an_scalar an = Some sa /\ sa_value sa = v
  | EvSequenceStart a t _ _ | EvMappingStart a t _ _ => an_anchor_a an = option_map (fun a => (a, false)) a /\ tag_an tds t (an_tag an)
  | _ => True
  end.
Lemma anchor_val a b : valid_name a -> analyze_anchor a b = ret (a, b).
Proof.
  intros [H1 H2]. unfold analyze_anchor. replace (is_empty a) with false by (destruct a; [congruence|reflexivity]). apply alpha_names in H2.
  rewrite H2. reflexivity.
Qed.
Lemma opt_anchor_val a : all valid_name a -> analyze_opt_anchor a = ret (option_map (fun a => (a, false)) a).
Proof. destruct a as [a|]; intros H; cbn [analyze_opt_anchor option_map all] in *; [|reflexivity]. rewrite (anchor_val _ _ H). reflexivity. Qed.
Lemma opt_tag_val t tds : all (fun t => t <> []) t -> all ascii t -> exists o, analyze_opt_tag t true tds = ret o /\ tag_an tds t o.
Proof.
  destruct t as [t|]; intros H Ha; cbn [analyze_opt_tag all] in *; [|exists None; split; [reflexivity|exact I]].
  unfold analyze_tag. replace (is_empty t) with false by (destruct t; [congruence|reflexivity]). destruct (tag_loop t tds Ha) as (h & x & E & Hx). exists (Some (h, x)). rewrite E. split; [reflexivity|exact Hx].
Qed.
Lemma sa_value_of u v : sa_value (analyze_scalar u v) = v.
Proof. unfold analyze_scalar. destruct (is_empty v) eqn:E; [|reflexivity]. destruct v; [reflexivity|discriminate E]. Qed.
Definition tag_in (d : event_data) : option str := match d with EvScalar _ t _ _ _ _ | EvSequenceStart _ t _ _ | EvMappingStart _ t _ _ => t | _ => None end.
Lemma event_val e tds c : em_canonical c = true -> valid_names true (e_data e) -> all ascii (tag_in (e_data e)) ->
  exists an, (forall s, core s = c -> analyze_event e tds s = (Ok an, s)) /\ an_ok tds (e_data e) an.
Proof.
  intros Hc [Hv Hw] Ha. unfold analyze_event.
  assert (Hs : forall s, core s = c -> em_canonical s = true /\ em_unicode s = em_unicode c) by (intros s <-; split; [exact Hc|reflexivity]).
  destruct (e_data e) as [en| |vd tdl i|i|a|a t v pi qi sty|a t i sty| |a t i sty|]; cbn [anchor_in tag_in written_tag orb] in Hv, Hw, Ha;
    try (exists analysis_default; split; [intros s _; reflexivity|exact I]).
  - exists (Mk_analysis (Some (a, true)) None None). split; [|reflexivity]. intros s _. unfold bind at 1, get. rewrite (anchor_val _ _ Hv). reflexivity.
  - destruct (opt_tag_val t tds Hw Ha) as (o & Eo & Ho). exists (Mk_analysis (option_map (fun a => (a, false)) a) o (Some (analyze_scalar (em_unicode c) v))). split.
    + intros s H. destruct (Hs s H) as [H1 H2]. unfold bind at 1, get. rewrite (opt_anchor_val _ Hv), H1. cbn [orb]. rewrite Eo, H2. reflexivity.
    + split; [reflexivity|]. split; [exact Ho|]. eexists. split; [reflexivity|apply sa_value_of].
  - destruct (opt_tag_val t tds Hw Ha) as (o & Eo & Ho). exists (Mk_analysis (option_map (fun a => (a, false)) a) o None). split.
    + intros s H. destruct (Hs s H) as [H1 H2]. unfold bind at 1, get. rewrite (opt_anchor_val _ Hv), H1. cbn [orb]. rewrite Eo. reflexivity.
    + split; [reflexivity|exact Ho].
  - destruct (opt_tag_val t tds Hw Ha) as (o & Eo & Ho). exists (Mk_analysis (option_map (fun a => (a, false)) a) o None). split.
    + intros s H. destruct (Hs s H) as [H1 H2]. unfold bind at 1, get. rewrite (opt_anchor_val _ Hv), H1. cbn [orb]. rewrite Eo. reflexivity.
    + split; [reflexivity|exact Ho].
Qed.
End canon.
