(** CanonItems.v -- a text made of items, and the tokens the scanner finds in it. *)
From Coq Require Import Lia ZifyBool ZifyNat ZifyN Bool.
From Verif Require Import Base Utf Chars State Reader Scanner Wp ScanFacts RoundScan EState Emitter EmitScalar EmitQuoted EmitGrammar Spec_EmitNames CanonLex CanonBody.
Open Scope N_scope.

Inductive item :=
| ISp | IBr                                    (* a space, a line break *)
| IOpen (mp : bool) | IClose (mp : bool)       (* brackets; [mp]: braces *)
| IComma | IKey | IValue
| IName (alias : bool) (a : str)
| ITag (f : tag_form)
| IQuoted (ats : list atom)
| IStart | IEnd                                (* the document markers *)
| IVersion (d : N) | ITagDir (h x : str).      (* directives, with the line break *)
Section items.
Variable lf : str.
Definition itext (i : item) : str :=
  match i with
  | ISp => [32] | IBr => lf
  | IOpen mp => [if mp then 123 else 91] | IClose mp => [if mp then 125 else 93]
  | IComma => [44] | IKey => [63] | IValue => [58]
  | IName alias a => (if alias then 42 else 38) :: a
  | ITag f => form_text f
  | IQuoted ats => 34 :: flat ats ++ [34]
  | IStart => lit "---" | IEnd => lit "..."
  | IVersion d => lit "%YAML 1." ++ [48 + d] ++ lf
  | ITagDir h x => lit "%TAG " ++ h ++ [32] ++ uri x ++ lf
  end.
Definition item_ok (i : item) : Prop :=
  match i with
  | IName _ a => a <> [] /\ forallb is_alpha_c a = true
  | ITag f => form_ok f
  | IQuoted ats => Forall (awf false lf) ats /\ (forall x, cols 1 (x + 1) ats)
  | IVersion d => d < 10
  | ITagDir h x => valid_handle h /\ x <> [] /\ ascii x
  | _ => True
  end.
Definition itok (i : item) : list token_data :=
  match i with
  | ISp | IBr => []
  | IOpen mp => [if mp then TFlowMappingStart else TFlowSequenceStart]
  | IClose mp => [if mp then TFlowMappingEnd else TFlowSequenceEnd]
  | IComma => [TFlowEntry] | IKey => [TKey] | IValue => [TValue]
  | IName alias a => [if alias then TAlias a else TAnchor a]
  | ITag f => [form_token f]
  | IQuoted ats => [TScalar (den g0 ats) SDouble]
  | IStart => [TDocumentStart] | IEnd => [TDocumentEnd]
  | IVersion d => [TVersionDirective 1 (Z.of_N d)] | ITagDir h x => [TTagDirective h x]
  end.
Definition texts (l : list item) : str := flat_map itext l.
Definition toks (l : list item) : list token_data := flat_map itok l.
(** Where the items may stand: the depth of the flow collections, whether the text is at the beginning of a line, whether
    there has been a line break since the last token, and what must come next. *)
Inductive need := Free | Comma | Blank.
Record lstate := LS { lv : N; lz : bool; lnl : bool; ln : need }.
Definition tok_free (n : need) : bool := match n with Free => true | _ => false end.
Definition lstep (s : lstate) (i : item) : option lstate :=
  let fr := tok_free (ln s) in
  match i with
  | ISp => Some (LS (lv s) false (lnl s) Free)
  | IBr => Some (LS (lv s) true true Free)
  | IOpen _ => if fr && (lv s <? 2147483647) then Some (LS (lv s + 1) false false Free) else None
  | IClose _ => if fr && (0 <? lv s) then Some (LS (lv s - 1) false false Free) else None
  | IComma => if (0 <? lv s) && match ln s with Blank => false | _ => true end then Some (LS (lv s) false false Free) else None
  | IKey => if fr && (0 <? lv s) then Some (LS (lv s) false false Free) else None
  | IValue => if fr && (0 <? lv s) && lnl s then Some (LS (lv s) false false Free) else None
  | IName _ _ => if fr then Some (LS (lv s) false false Comma) else None
  | ITag _ => if fr then Some (LS (lv s) false false Blank) else None
  | IQuoted _ => if fr then Some (LS (lv s) false false Free) else None
  | IStart | IEnd => if fr && lz s && (lv s =? 0) then Some (LS 0 false false Blank) else None
  | IVersion _ | ITagDir _ _ => if fr && lz s && (lv s =? 0) then Some (LS 0 true false Free) else None
  end.
Fixpoint lrun (s : lstate) (l : list item) : option lstate :=
  match l with [] => Some s | i :: r => match lstep s i with Some s' => lrun s' r | None => None end end.
Lemma lrun_app a : forall s b, lrun s (a ++ b) = match lrun s a with Some s' => lrun s' b | None => None end.
Proof. induction a as [|i a IH]; intros s b; [reflexivity|]. cbn [app lrun]. destruct (lstep s i); [apply IH|reflexivity]. Qed.
Lemma texts_app a b : texts (a ++ b) = texts a ++ texts b. Proof. apply flat_map_app. Qed.
Lemma toks_app a b : toks (a ++ b) = toks a ++ toks b. Proof. apply flat_map_app. Qed.

Hypothesis Hlf : lf_ok lf.
Definition is_gap (i : item) : bool := match i with ISp | IBr => true | _ => false end.
Definition gap_of (b : bool) : item := if b then IBr else ISp.
Lemma gap_text g : texts (map gap_of g) = gtext lf g.
Proof. induction g as [|[] g IH]; [reflexivity| |]; cbn [map texts flat_map gap_of itext gtext]; fold (texts (map gap_of g)); fold (gtext lf g); rewrite IH; reflexivity. Qed.
Lemma gap_run s g rest : lrun s (map gap_of g ++ rest) = lrun (LS (lv s) (gz (lz s) g) (lnl s || gnl g) (match g with [] => ln s | _ => Free end)) rest.
Proof.
  revert s. induction g as [|b g IH]; intros s; [cbn [map app gz gnl existsb]; rewrite orb_false_r; destruct s; reflexivity|].
  cbn [map app lrun]. destruct b; cbn [gap_of lstep]; rewrite IH; cbn [lv lz lnl ln gz gnl existsb orb]; rewrite ?orb_true_r; destruct g; reflexivity.
Qed.
Lemma split_items (l : list item) : exists g r, l = map gap_of g ++ r /\ match r with [] => True | i :: _ => is_gap i = false end.
Proof.
  induction l as [|i l (g & r & -> & H)]; [exists [], []; auto|]. destruct (is_gap i) eqn:E; [|exists [], (i :: map gap_of g ++ r); auto].
  exists (match i with IBr => true | _ => false end :: g), r. split; [|exact H]. destruct i; discriminate E || reflexivity.
Qed.
Lemma itext_ne i : item_ok i -> itext i <> [].
Proof.
  destruct i; cbn [itext]; try discriminate.
  - intros _. destruct Hlf as [-> |[-> | ->]]; discriminate.
  - destruct f as [x| |h x]; try discriminate. intros (Hh & _) H. cbn [form_text] in H. apply app_eq_nil in H. destruct H as [H _]. destruct Hh as [-> |(w & -> & _)]; discriminate H.
Qed.
Lemma count_items l : Forall item_ok l -> (length l <= length (texts l))%nat.
Proof. induction 1 as [|i l Hi _ IH]; [cbn; lia|]. cbn [texts flat_map length]. rewrite app_length. fold (texts l). pose proof (itext_ne i Hi) as N. destruct (itext i); [congruence|]. cbn [length]. lia. Qed.
(** First characters. *)
Lemma form_first f : form_ok f -> exists r, form_text f = 33 :: r.
Proof. destruct f as [x| |h x]; [eexists; reflexivity|eexists; reflexivity|]. intros (Hh & _). cbn [form_text]. destruct Hh as [-> |(w & -> & _)]; eexists; reflexivity. Qed.
Lemma itext_start i r : item_ok i -> is_gap i = false -> tok_start (itext i ++ r) /\ nth_error (itext i ++ r) 0 <> Some 10.
Proof.
  intros Hi Hg. destruct i; try discriminate Hg; cbn [itext]; try (split; [repeat split; discriminate|discriminate]).
  - destruct mp; split; [repeat split; discriminate|discriminate|repeat split; discriminate|discriminate].
  - destruct mp; split; [repeat split; discriminate|discriminate|repeat split; discriminate|discriminate].
  - destruct alias; split; [repeat split; discriminate|discriminate|repeat split; discriminate|discriminate].
  - destruct (form_first f Hi) as (w & ->). split; [repeat split; discriminate|discriminate].
Qed.
Lemma texts_no_lf l : Forall item_ok l -> no_lf_before lf (texts l).
Proof.
  intros H. unfold no_lf_before. destruct l as [|i l]; [exact I|]. inversion H as [|? ? Hi _]; subst. cbn [texts flat_map]. destruct (is_gap i) eqn:E.
  - destruct i; try discriminate E; cbn [itext]; [exact I|]. destruct Hlf as [-> |[-> | ->]]; cbn; try exact I; discriminate.
  - pose proof (proj2 (itext_start i (flat_map itext l) Hi E)) as N. revert N. destruct (itext i ++ flat_map itext l) as [|c w]; intros N; [exact I|]. cbn in N.
    destruct (N.eqb_spec c 10) as [-> |Hc]; [exfalso; apply N; reflexivity|]. clear N. repeat match goal with |- match ?d with _ => _ end => destruct d; try exact I end; congruence.
Qed.
Lemma blank_text l s s' : lrun s l = Some s' -> ln s = Blank -> blank_behind (texts l).
Proof.
  intros H Hn. destruct l as [|i l]; [reflexivity|]. cbn [lrun] in H. unfold lstep in H. rewrite Hn in H. unfold blank_behind. cbn [texts flat_map].
  destruct i; cbn [tok_free andb] in H; try discriminate H; [reflexivity| |rewrite andb_false_r in H; discriminate H]. 
  destruct (lf_first lf (flat_map itext l) Hlf) as (c & w & E & Hc). cbn [itext]. rewrite E. destruct Hc as [-> | ->]; reflexivity.
Qed.
Lemma name_text l s s' : lrun s l = Some s' -> ln s = Comma -> name_behind (texts l).
Proof.
  intros H Hn. destruct l as [|i l]; [left; reflexivity|]. cbn [lrun] in H. unfold lstep in H. rewrite Hn in H. unfold name_behind, blank_behind. cbn [texts flat_map].
  destruct i; cbn [tok_free andb] in H; try discriminate H; [left; reflexivity| |right; left; reflexivity].
  left. destruct (lf_first lf (flat_map itext l) Hlf) as (c & w & E & Hc). cbn [itext]. rewrite E. destruct Hc as [-> | ->]; reflexivity.
Qed.

(** ** One token *)
Definition Lx (ls : lstate) (s : sst) (m : mark) : Prop := inv (lv ls) (m_line m + 1) s /\ (lz ls = true -> m_col m = 0) /\ lnl ls = false.
Lemma directive_at0 body rest d s m : inv 0 (m_line m + 1) s -> (forall s, ideal s -> scanned0 scan_directive body rest d s m) ->
  exists s2 m2, fetch_directive (at_ s (body ++ rest) m) = (Ok tt, at_ s2 rest m2) /\ inv 0 (m_line m2 + 1) s2 /\ moved s d s2 /\ m_line m <= m_line m2 /\ m_col m2 = 0.
Proof.
  intros I H. unfold fetch_directive.
  rewrite (bok _ _ _ _ _ (unroll_nil s _ m (-1) (i_indents _ _ _ I) (i_indent _ _ _ I) ltac:(lia))).
  destruct (remove_at 0 _ s (body ++ rest) m I) as (k & r & Ek & E1). rewrite (bok _ _ _ _ _ E1).
  pose proof (inv_off _ _ _ _ _ I Ek) as I1. set (s1 := set_simple_keys (sk_off k :: r) s) in *.
  rewrite (bmod _ _ _ (at_ (set_simple_key_allowed false s1) (body ++ rest) m)) by reflexivity.
  set (s2 := set_simple_key_allowed _ _). destruct (H s2 (i_ideal _ _ _ I1)) as (a & b & m2 & E2 & L2 & C2). rewrite (bok _ _ _ _ _ E2).
  exists (set_tokens (tokens s2 ++ [Mk_token d a b]) s2), m2. split; [reflexivity|]. split; [|split; [constructor; [reflexivity|reflexivity|reflexivity|reflexivity|eexists _, _; reflexivity]|split; assumption]].
  apply inv_tokens, inv_allow. eapply inv_mono; [|exact I1]. lia.
Qed.
Definition fetched (i : item) (rest : str) (ls' : lstate) (s1 : sst) (m1 : mark) : Prop :=
  exists s2 m2, fetch_rest (at_ s1 (itext i ++ rest) m1) = (Ok tt, at_ s2 rest m2) /\ Lx ls' s2 m2 /\ exists d, itok i = [d] /\ moved s1 d s2.
Lemma dispatch s t m : fetch_rest (at_ s t m) = (
    let col0 := m_col m =? 0 in
    let o := nth_error t 0 in
    let flow := negb (flow_level s =? 0) in
    if is_z o then fetch_stream_end
    else if col0 && chk cPCT o then fetch_directive
    else if col0 && chk cMINUS o && chk cMINUS (nth_error t 1) && chk cMINUS (nth_error t 2) && is_blankz (nth_error t 3)
    then fetch_document_indicator TDocumentStart
    else if col0 && chk cDOT o && chk cDOT (nth_error t 1) && chk cDOT (nth_error t 2) && is_blankz (nth_error t 3)
    then fetch_document_indicator TDocumentEnd
    else if chk cLBRK o then fetch_flow_collection_start TFlowSequenceStart
    else if chk cLBRC o then fetch_flow_collection_start TFlowMappingStart
    else if chk cRBRK o then fetch_flow_collection_end TFlowSequenceEnd
    else if chk cRBRC o then fetch_flow_collection_end TFlowMappingEnd
    else if chk cCOMMA o then fetch_flow_entry
    else if chk cMINUS o && is_blankz (nth_error t 1) then fetch_block_entry
    else if chk cQM o && (flow || is_blankz (nth_error t 1)) then fetch_key
    else if chk cCOLON o && (flow || is_blankz (nth_error t 1)) then fetch_value
    else if chk cSTAR o then fetch_anchor true
    else if chk cAMP o then fetch_anchor false
    else if chk cBANG o then fetch_tag
    else if chk cPIPE o && negb flow then fetch_block_scalar true
    else if chk cGT o && negb flow then fetch_block_scalar false
    else if chk cSQ o then fetch_flow_scalar true
    else if chk cDQ o then fetch_flow_scalar false
    else if plain_start (at_ s t m) then fetch_plain_scalar
    else scan_error "while scanning for the next token" m "found character that cannot start any token") (at_ s t m).
Proof. unfold fetch_rest. rewrite bgt. reflexivity. Qed.
Ltac disp c := rewrite dispatch; cbn [itext app nth_error]; cbv zeta; cbn [is_z chk]; rewrite ?andb_false_r; cbn [andb orb].
Lemma fetch_item i ls ls' rest s1 m1 : inv (lv ls) (m_line m1 + 1) s1 -> (lz ls = true -> m_col m1 = 0) -> (lnl ls = true -> Forall (fun k => sk_possible k = false) (simple_keys s1)) ->
  is_gap i = false -> item_ok i -> lstep ls i = Some ls' ->
  (ln ls' = Blank -> blank_behind rest) -> (ln ls' = Comma -> name_behind rest) -> no_lf_before lf rest ->
  fetched i rest ls' s1 m1.
Proof.
  intros I Hz Hnl Hg Hi Hs Hb Hc Hlr. unfold fetched.
  assert (Ef : forall x, 0 < lv ls -> negb (flow_level (at_ s1 x m1) =? 0) = true) by (intros x Hx; change (flow_level (at_ s1 x m1)) with (flow_level s1); rewrite (i_level _ _ _ I); lia).
  assert (FN : forall f d lv', itok i = [d] -> fetches f (itext i) rest d (lv ls) lv' s1 m1 -> lv' = lv ls' -> lz ls' = false -> lnl ls' = false ->
    exists s2 m2, f (at_ s1 (itext i ++ rest) m1) = (Ok tt, at_ s2 rest m2) /\ Lx ls' s2 m2 /\ exists d, itok i = [d] /\ moved s1 d s2).
  { intros f d lv' Ht (s2 & m2 & E & I2 & V & L) -> Hz' Hn'. exists s2, m2. split; [exact E|]. split; [split; [exact I2|split; [rewrite Hz'; discriminate|exact Hn']]|]. exists d. auto. }
  destruct i; try discriminate Hg; cbn [lstep] in Hs.
  - (* open *)
    destruct (tok_free (ln ls) && (lv ls <? 2147483647)) eqn:E; [|discriminate]. injection Hs as <-.
    rewrite dispatch. destruct mp; cbn [itext app nth_error]; cbv zeta; cbn [is_z chk N.eqb Pos.eqb]; rewrite ?andb_false_r; cbn [andb orb];
      (eapply FN; [reflexivity|apply open_at; [exact I|lia]|reflexivity|reflexivity|reflexivity]).
  - (* close *)
    destruct (tok_free (ln ls) && (0 <? lv ls)) eqn:E; [|discriminate]. injection Hs as <-.
    rewrite dispatch. destruct mp; cbn [itext app nth_error]; cbv zeta; cbn [is_z chk N.eqb Pos.eqb]; rewrite ?andb_false_r; cbn [andb orb];
      (eapply FN; [reflexivity|apply close_at; [exact I|lia]|reflexivity|reflexivity|reflexivity]).
  - (* comma *)
    destruct ((0 <? lv ls) && match ln ls with Blank => false | _ => true end) eqn:E; [|discriminate]. injection Hs as <-.
    rewrite dispatch. cbn [itext app nth_error]; cbv zeta; cbn [is_z chk N.eqb Pos.eqb]; rewrite ?andb_false_r; cbn [andb orb].
    eapply FN; [reflexivity|apply comma_at; exact I|reflexivity|reflexivity|reflexivity].
  - (* key *)
    destruct (tok_free (ln ls) && (0 <? lv ls)) eqn:E; [|discriminate]. injection Hs as <-.
    rewrite dispatch. cbn [itext app nth_error]; cbv zeta; cbn [is_z chk N.eqb Pos.eqb]; rewrite ?andb_false_r; cbn [andb orb]. rewrite (i_level _ _ _ I). replace (lv ls =? 0) with false by lia. cbn [negb orb andb].
    eapply FN; [reflexivity|apply key_at; [exact I|lia]|reflexivity|reflexivity|reflexivity].
  - (* value *)
    destruct (tok_free (ln ls) && (0 <? lv ls) && lnl ls) eqn:E; [|discriminate]. injection Hs as <-.
    rewrite dispatch. cbn [itext app nth_error]; cbv zeta; cbn [is_z chk N.eqb Pos.eqb]; rewrite ?andb_false_r; cbn [andb orb]. rewrite (i_level _ _ _ I). replace (lv ls =? 0) with false by lia. cbn [negb orb andb].
    eapply FN; [reflexivity|apply value_at; [exact I|lia|apply Hnl; lia]|reflexivity|reflexivity|reflexivity].
  - (* name *)
    destruct (tok_free (ln ls)) eqn:E; [|discriminate]. injection Hs as <-. cbn [ln] in *. destruct Hi as [Hi1 Hi2].
    rewrite dispatch. destruct alias; cbn [itext app nth_error]; cbv zeta; cbn [is_z chk N.eqb Pos.eqb]; rewrite ?andb_false_r; cbn [andb orb].
    + eapply FN; [reflexivity|apply (saved_at (scan_anchor true)); [exact I|intros s' Hs' _; apply (anchor_at true a rest s' m1 Hs' Hi1 Hi2), Hc; reflexivity]|reflexivity|reflexivity|reflexivity].
    + eapply FN; [reflexivity|apply (saved_at (scan_anchor false)); [exact I|intros s' Hs' _; apply (anchor_at false a rest s' m1 Hs' Hi1 Hi2), Hc; reflexivity]|reflexivity|reflexivity|reflexivity].
  - (* tag *)
    destruct (tok_free (ln ls)) eqn:E; [|discriminate]. injection Hs as <-. cbn [ln] in *. destruct (form_first f Hi) as (w & Ew).
    rewrite dispatch. cbn [itext]. rewrite Ew. cbn [app nth_error]; cbv zeta; cbn [is_z chk N.eqb Pos.eqb]; rewrite ?andb_false_r; cbn [andb orb]. match goal with |- context [fetch_tag ?q] => replace q with (at_ s1 (itext (ITag f) ++ rest) m1) by (cbn [itext]; rewrite Ew; reflexivity) end.
    eapply FN; [reflexivity|apply (saved_at scan_tag); [exact I|intros s' Hs' _; apply (tag_at f rest s' m1 Hs' Hi), Hb; reflexivity]|reflexivity|reflexivity|reflexivity].
  - (* scalar *)
    destruct (tok_free (ln ls)) eqn:E; [|discriminate]. injection Hs as <-. cbn [ln] in *. destruct Hi as [Hi1 Hi2].
    rewrite dispatch. cbn [itext app nth_error]; cbv zeta; cbn [is_z chk N.eqb Pos.eqb]; rewrite ?andb_false_r; cbn [andb orb].
    eapply FN; [reflexivity|apply (saved_at (scan_flow_scalar false)); [exact I|intros s' Hs' _; apply (quoted_at lf ats rest s' m1 Hs' Hlf Hi1 Hi2)]|reflexivity|reflexivity|reflexivity].
  - (* --- *)
    destruct (tok_free (ln ls) && lz ls && (lv ls =? 0)) eqn:E; [|discriminate]. injection Hs as <-. cbn [ln] in *. assert (El : lv ls = 0) by lia. assert (Ez : lz ls = true) by (destruct (lz ls); [reflexivity|rewrite andb_false_r in E; discriminate]).
    specialize (Hb eq_refl). unfold blank_behind in Hb. rewrite El in *.
    rewrite dispatch. rewrite (Hz Ez). change (itext IStart ++ rest) with (45 :: 45 :: 45 :: rest). replace (nth_error (45 :: 45 :: 45 :: rest) 3) with (nth_error rest 0) by reflexivity.
    cbn [nth_error]; cbv zeta; cbn [is_z chk N.eqb Pos.eqb andb orb]. fold (nth_error rest 0). rewrite Hb.
    eapply FN; [reflexivity|apply (marker_at TDocumentStart 45 45 45); exact I|reflexivity|reflexivity|reflexivity].
  - (* ... *)
    destruct (tok_free (ln ls) && lz ls && (lv ls =? 0)) eqn:E; [|discriminate]. injection Hs as <-. cbn [ln] in *. assert (El : lv ls = 0) by lia. assert (Ez : lz ls = true) by (destruct (lz ls); [reflexivity|rewrite andb_false_r in E; discriminate]).
    specialize (Hb eq_refl). unfold blank_behind in Hb. rewrite El in *.
    rewrite dispatch. rewrite (Hz Ez). change (itext IEnd ++ rest) with (46 :: 46 :: 46 :: rest). replace (nth_error (46 :: 46 :: 46 :: rest) 3) with (nth_error rest 0) by reflexivity.
    cbn [nth_error]; cbv zeta; cbn [is_z chk N.eqb Pos.eqb andb orb]. fold (nth_error rest 0). rewrite Hb.
    eapply FN; [reflexivity|apply (marker_at TDocumentEnd 46 46 46); exact I|reflexivity|reflexivity|reflexivity].
  - (* %YAML *)
    destruct (tok_free (ln ls) && lz ls && (lv ls =? 0)) eqn:E; [|discriminate]. injection Hs as <-. assert (El : lv ls = 0) by lia. assert (Ez : lz ls = true) by (destruct (lz ls); [reflexivity|rewrite andb_false_r in E; discriminate]).
    rewrite El in *. destruct (directive_at0 (itext (IVersion d)) rest (TVersionDirective 1 (Z.of_N d)) s1 m1 I) as (s2 & m2 & E2 & I2 & V2 & _ & C2).
    { intros s' Hs'. apply (version_at lf d rest s' m1 Hs' Hlf Hlr Hi). }
    exists s2, m2. split; [|split; [split; [exact I2|split; [auto|reflexivity]]|exists (TVersionDirective 1 (Z.of_N d)); split; [reflexivity|exact V2]]].
    rewrite dispatch, (Hz Ez), <- E2. reflexivity.
  - (* %TAG *)
    destruct (tok_free (ln ls) && lz ls && (lv ls =? 0)) eqn:E; [|discriminate]. injection Hs as <-. assert (El : lv ls = 0) by lia. assert (Ez : lz ls = true) by (destruct (lz ls); [reflexivity|rewrite andb_false_r in E; discriminate]).
    rewrite El in *. destruct Hi as (Hi1 & Hi2 & Hi3). destruct (directive_at0 (itext (ITagDir h x)) rest (TTagDirective h x) s1 m1 I) as (s2 & m2 & E2 & I2 & V2 & _ & C2).
    { intros s' Hs'. apply (tag_directive_at lf h x rest s' m1 Hs' Hlf Hlr Hi1 Hi2 Hi3). }
    exists s2, m2. split; [|split; [split; [exact I2|split; [auto|reflexivity]]|exists (TTagDirective h x); split; [reflexivity|exact V2]]].
    rewrite dispatch, (Hz Ez), <- E2. reflexivity.
Qed.

(** ** The queue of tokens *)
Notation off ks := (Forall (fun k => sk_possible k = false) ks).
Lemma end_at' s m : inv 0 (m_line m + 1) s -> exists s2 m2, fetch_stream_end (at_ s [] m) = (Ok tt, at_ s2 [] m2) /\ inv 0 (m_line m2 + 1) s2 /\ moved s TStreamEnd s2 /\ off (simple_keys s2).
Proof.
  intros I. unfold fetch_stream_end. set (m1 := if m_col m =? 0 then m else Mk_mark (m_index m) (m_line m + 1) 0).
  assert (E0 : modify (fun s => if m_col (pos s) =? 0 then s else set_pos (Mk_mark (m_index (pos s)) (m_line (pos s) + 1) 0) s) (at_ s [] m) = (Ok tt, at_ s [] m1)).
  { unfold modify. change (pos (at_ s [] m)) with m. subst m1. destruct (m_col m =? 0); reflexivity. }
  rewrite (bok _ _ _ _ _ E0). assert (L : m_line m <= m_line m1) by (subst m1; destruct (m_col m =? 0); cbn; lia).
  rewrite (bok _ _ _ _ _ (unroll_nil s _ m1 (-1) (i_indents _ _ _ I) (i_indent _ _ _ I) ltac:(lia))).
  destruct (remove_at 0 _ s [] m1 I) as (k & r & Ek & E1). rewrite (bok _ _ _ _ _ E1).
  pose proof (inv_off _ _ _ _ _ I Ek) as I1. set (s1 := set_simple_keys (sk_off k :: r) s) in *.
  rewrite (bmod _ _ _ (at_ (set_simple_key_allowed false s1) [] m1)) by reflexivity.
  set (s2 := set_simple_key_allowed _ _). exists (set_tokens (tokens s2 ++ [Mk_token TStreamEnd m1 m1]) s2), m1. split; [reflexivity|]. split; [|split; [constructor; [reflexivity|reflexivity|reflexivity|reflexivity|eexists _, _; reflexivity]|]].
  - apply inv_tokens, inv_allow. eapply inv_mono; [|exact I1]. lia.
  - change (off (sk_off k :: r)). pose proof (i_count _ _ _ I) as Hc. rewrite Ek in Hc. cbn [length] in Hc. destruct r; [|cbn [length] in Hc; lia]. constructor; [reflexivity|constructor].
Qed.
Lemma moved_front s s0 s1 d s2 : src s1 = src s -> tokens_parsed s1 = tokens_parsed s -> token_available s1 = token_available s -> stream_end_produced s1 = stream_end_produced s -> tokens s1 = tokens s ->
  s0 = s1 -> moved s1 d s2 -> moved s d s2.
Proof. intros A B C D E _ [M1 M2 M3 M4 (a & b & M5)]. constructor; try congruence. exists a, b. congruence. Qed.

(** [Scn s k l]: the tokens still to be delivered are [l], and at most [k] of them are still in the text. *)
Inductive Scn (s : sst) : nat -> list token_data -> Prop :=
| Sc_init its ls' : ideal s -> buffer s = texts its -> stream_start_produced s = false -> indents s = [] -> flow_level s = 0 -> simple_keys s = [] -> tokens s = [] -> m_col (pos s) = 0 ->
    lrun (LS 0 true false Free) its = Some ls' -> lv ls' = 0 -> Forall item_ok its -> Scn s (2 + length its) (TStreamStart Utf8 :: toks its ++ [TStreamEnd])
| Sc_go s0 m ls ls' its : s = at_ s0 (texts its) m -> Lx ls s0 m -> lrun ls its = Some ls' -> lv ls' = 0 -> Forall item_ok its -> Scn s (1 + length its) (map t_data (tokens s0) ++ toks its ++ [TStreamEnd])
| Sc_end b : inv 0 b s -> off (simple_keys s) -> Scn s 0 (map t_data (tokens s)).
Lemma lrun_step ls i its ls' : lrun ls (i :: its) = Some ls' -> exists ls1, lstep ls i = Some ls1 /\ lrun ls1 its = Some ls'.
Proof. cbn [lrun]. destruct (lstep ls i); [eauto|discriminate]. Qed.

Record kept (s s' : sst) : Prop := { kp_parsed : tokens_parsed s' = tokens_parsed s; kp_end : stream_end_produced s' = stream_end_produced s }.
Lemma fetch_scn s k l : Scn s (S k) l -> exists s' k', fetch_next_token s = (Ok tt, s') /\ Scn s' k' l /\ (k' <= k)%nat /\ kept s s' /\ token_available s' = token_available s.
Proof.
  intros H. inversion H as [its ls' Hid Hb Hss Hin Hfl Hk Ht Hc Hr Hl Hok E1 E2|s0 m ls ls' its E HL Hr Hl Hok E1 E2|]; subst.
  - exists (set_tokens (tokens s ++ [Mk_token (TStreamStart (enc s)) (pos s) (pos s)]) (set_stream_start_produced true (set_simple_key_allowed true (set_simple_keys (Mk_sk false false 0 mark0 :: simple_keys s) (set_indent (-1)%Z s))))), (1 + length its)%nat.
    split; [|split; [|split; [lia|repeat split]]].
    + rewrite (at_id s), fetch_eq, (bok _ _ _ _ _ (c_at s Hid _ _ _)), bgt, <- (at_id s), Hss. reflexivity.
    + set (s1 := set_stream_start_produced true (set_simple_key_allowed true (set_simple_keys (Mk_sk false false 0 mark0 :: simple_keys s) (set_indent (-1)%Z s)))).
      set (s2 := set_tokens (tokens s ++ [Mk_token (TStreamStart (enc s)) (pos s) (pos s)]) s1).
      replace (TStreamStart Utf8 :: toks its ++ [TStreamEnd]) with (map t_data (tokens s2) ++ toks its ++ [TStreamEnd]).
      2: { change (tokens s2) with (tokens s ++ [Mk_token (TStreamStart (enc s)) (pos s) (pos s)]). rewrite Ht. cbn [app map t_data]. rewrite (proj1 (proj2 Hid)). reflexivity. }
      apply (Sc_go s2 s2 (pos s) (LS 0 true false Free) ls' its); [rewrite <- Hb; change (buffer s) with (buffer s2); change (pos s) with (pos s2); apply at_id| |exact Hr|exact Hl|exact Hok].
      split; [|split; [intros _; exact Hc|reflexivity]]. constructor; [exact Hid|reflexivity|reflexivity|exact Hin|exact Hfl| |].
      * change (simple_keys s2) with (Mk_sk false false 0 mark0 :: simple_keys s). rewrite Hk. reflexivity.
      * change (simple_keys s2) with (Mk_sk false false 0 mark0 :: simple_keys s). rewrite Hk. constructor; [intros D; discriminate D|constructor].
  - destruct (split_items its) as (g & r & -> & Hr2). destruct HL as (I & Hz & Hnl). rewrite texts_app, gap_text.
    assert (Hok2 : Forall item_ok r) by (apply Forall_app in Hok; apply Hok).
    assert (Hts : tok_start (texts r)).
    { destruct r as [|i r]; [exact Logic.I|]. inversion Hok2; subst. cbn [texts flat_map]. apply itext_start; assumption. }
    destruct (fetch_pre lf g (texts r) (lv ls) _ s0 m (lz ls) Hlf Hts I (N.le_refl _) Hz) as (s1 & m1 & E & I1 & L1 & Z1 & K1 & _ & F1 & F2 & F3 & F4 & F5). rewrite E.
    rewrite gap_run in Hr.
    assert (I2 : inv (lv ls) (m_line m1 + 1) s1) by (eapply inv_mono; [|exact I1]; lia).
    destruct r as [|i r].
    + cbn [lrun] in Hr. injection Hr as <-. cbn [lv] in Hl. rewrite Hl in I2. destruct (end_at' s1 m1 I2) as (s2 & m2 & E2 & I3 & V & O).
      exists (at_ s2 [] m2), 0%nat. cbn [texts flat_map]. rewrite dispatch. cbn [nth_error]. cbv zeta. cbn [is_z]. split; [exact E2|]. destruct V as [V1 V2 V3 V4 (a & b & V5)].
      split; [|split; [clear; lia|split; [split; [exact (eq_trans V2 F2)|exact (eq_trans V4 F4)]|exact (eq_trans V3 F3)]]].
      replace (map t_data (tokens s0) ++ toks (map gap_of g ++ []) ++ [TStreamEnd]) with (map t_data (tokens (at_ s2 [] m2))); [apply (Sc_end _ (m_line m2 + 1)); [|exact O]|].
      * destruct I3. constructor; auto.
      * change (tokens (at_ s2 [] m2)) with (tokens s2). rewrite V5, F5, map_app, app_nil_r. cbn [map t_data]. replace (toks (map gap_of g)) with (@nil token_data); [reflexivity|].
        clear. induction g as [|[] g IH]; [reflexivity| |]; exact IH.
    + apply lrun_step in Hr. destruct Hr as (ls1 & Hs & Hr). inversion Hok2 as [|? ? Hi Hok3]; subst.
      destruct (fetch_item i (LS (lv ls) (gz (lz ls) g) (lnl ls || gnl g) (match g with [] => ln ls | _ => Free end)) ls1 (texts r) s1 m1 I2 Z1 ltac:(cbn [lnl]; rewrite Hnl; exact K1) Hr2 Hi Hs) as (s2 & m2 & E2 & HL2 & d & Hd & V); [intros; eapply blank_text; eassumption|intros; eapply name_text; eassumption|apply texts_no_lf, Hok3|].
      exists (at_ s2 (texts r) m2), (1 + length r)%nat. cbn [texts flat_map]. split; [exact E2|]. destruct V as [V1 V2 V3 V4 (a & b & V5)].
      split; [|split; [rewrite app_length, map_length; cbn [length]; clear; lia|split; [split; [exact (eq_trans V2 F2)|exact (eq_trans V4 F4)]|exact (eq_trans V3 F3)]]].
      replace (map t_data (tokens s0) ++ toks (map gap_of g ++ i :: r) ++ [TStreamEnd]) with (map t_data (tokens s2) ++ toks r ++ [TStreamEnd]); [eapply Sc_go; [reflexivity|exact HL2|exact Hr|exact Hl|exact Hok3]|].
      rewrite V5, F5, map_app, toks_app. replace (toks (map gap_of g)) with (@nil token_data) by (clear; induction g as [|[] g IH]; [reflexivity| |]; exact IH).
      cbn [app toks flat_map map t_data]. rewrite Hd, <- !app_assoc. reflexivity.
Qed.
Lemma stale_off m ks : off ks -> stale_keys m ks = (ks, None).
Proof. induction 1 as [|k ks Hk _ IH]; [reflexivity|]. cbn [stale_keys]. rewrite IH. unfold sk_stale. rewrite Hk. reflexivity. Qed.
Lemma stale_scn s k l : Scn s k l -> exists s', stale_simple_keys s = (Ok tt, s') /\ Scn s' k l /\ kept s s' /\ token_available s' = token_available s /\ tokens s' = tokens s.
Proof.
  intros H. inversion H as [its ls' Hid Hb Hss Hin Hfl Hk Ht Hc Hr Hl Hok E1 E2|s0 m ls ls' its E HL Hr Hl Hok E1 E2|b I O]; subst.
  - exists s. unfold stale_simple_keys. rewrite Hk. cbn [stale_keys]. split; [f_equal; rewrite <- Hk; destruct s; reflexivity|]. repeat split. exact H.
  - destruct HL as (I & Hz & Hnl). destruct (stale_ok _ m (simple_keys s0) (i_keys _ _ _ I)) as (ks & E2 & El & F1 & F2).
    exists (at_ (set_simple_keys ks s0) (texts its) m). unfold stale_simple_keys. change (pos (at_ s0 (texts its) m)) with m. change (simple_keys (at_ s0 (texts its) m)) with (simple_keys s0). rewrite E2.
    split; [reflexivity|]. split; [|repeat split]. change (tokens s0) with (tokens (set_simple_keys ks s0)). eapply Sc_go; [reflexivity| |exact Hr|exact Hl|exact Hok].
    split; [|split; [exact Hz|exact Hnl]]. apply inv_keys; assumption.
  - exists s. unfold stale_simple_keys. rewrite (stale_off _ _ O). split; [f_equal; destruct s; reflexivity|]. repeat split. exact H.
Qed.
Lemma scn_len s k l : Scn s k l -> (k <= 2 + meas s)%nat.
Proof.
  intros H. inversion H as [its ls' Hid Hb Hss Hin Hfl Hk Ht Hc Hr Hl Hok E1 E2|s0 m ls ls' its E HL Hr Hl Hok E1 E2|b I O]; subst.
  - pose proof (count_items _ Hok). unfold meas. rewrite Hb. unfold str, char in *. lia.
  - pose proof (count_items _ Hok). rewrite meas_at. unfold str, char in *. lia.
  - lia.
Qed.
Lemma more_at s k l : Scn s k l -> l <> [] -> exists s' k', fetch_more_tokens s = (Ok tt, s') /\ Scn s' k' l /\ kept s s' /\ token_available s' = true /\ tokens s' <> [].
Proof.
  intros H Hn. unfold fetch_more_tokens.
  match goal with |- context [loopM _ ?b _ _] => set (body := b) end.
  enough (G : forall n k s, Scn s k l -> (k < n)%nat -> exists s' k', loopM n body tt s = (Ok tt, s') /\ Scn s' k' l /\ kept s s' /\ tokens s' <> []).
  { destruct (G (S (S (S (S (meas s))))) k s H) as (s' & k' & E & H' & K & T); [pose proof (scn_len _ _ _ H); lia|].
    exists (set_token_available true s'), k'. split; [unfold bind; rewrite E; reflexivity|]. split; [|split; [destruct K; split; assumption|split; [reflexivity|exact T]]].
    clear -H'. inversion H' as [its ls' Hid Hb Hss Hin Hfl Hk Ht Hc Hr Hl Hok E1 E2|s0 m ls ls' its E HL Hr Hl Hok E1 E2|b I O]; subst.
    - eapply Sc_init; eassumption.
    - change (tokens s0) with (tokens (set_token_available true s0)). apply (Sc_go _ (set_token_available true s0) m ls ls' its); auto. destruct HL as (I & Hz & Hnl). split; [destruct I; constructor; auto|auto].
    - change (tokens s') with (tokens (set_token_available true s')). apply (Sc_end _ b); [destruct I; constructor; auto|exact O]. }
  clear s k H. induction n as [|n IH]; intros k s H Hk; [lia|]. cbn [loopM].
  assert (St : exists s1, (if is_empty (tokens s) then ret tt else stale_simple_keys) s = (Ok tt, s1) /\ Scn s1 k l /\ kept s s1 /\ tokens s1 = tokens s).
  { destruct (is_empty (tokens s)); [exists s; repeat split; exact H|]. destruct (stale_scn _ _ _ H) as (s1 & A & B & C & _ & D). exists s1. auto. }
  destruct St as (s1 & E1 & H1 & K1 & T1).
  assert (Eb : body tt s = (if negb (need_more_tokens s1) then ret (inr tt) else fetch_next_token ;; ret (inl tt)) s1).
  { subst body. cbv beta. rewrite bgt, (bok _ _ _ _ _ E1), bgt. reflexivity. }
  destruct (need_more_tokens s1) eqn:En; cbn [negb] in Eb.
  - destruct k as [|k].
    { exfalso. inversion H1 as [| |b I O]; subst. unfold need_more_tokens in En. apply orb_true_iff in En. destruct En as [En|En].
      - destruct (tokens s1); [apply Hn; reflexivity|discriminate].
      - apply existsb_exists in En. destruct En as (x & Hx & En). rewrite Forall_forall in O. rewrite (O _ Hx) in En. discriminate. }
    destruct (fetch_scn _ _ _ H1) as (s2 & k2 & E2 & H2 & L2 & K2 & _).
    destruct (IH k2 s2 H2 ltac:(lia)) as (s3 & k3 & E3 & H3 & K3 & T3). exists s3, k3. split.
    + rewrite (bok (body tt) _ s (inl tt) s2); [exact E3|]. rewrite Eb, (bok _ _ _ _ _ E2). reflexivity.
    + split; [exact H3|]. split; [destruct K1, K2, K3; split; congruence|exact T3].
  - exists s1, k. split; [rewrite (bok (body tt) _ s (inr tt) s1 Eb); reflexivity|]. split; [exact H1|]. split; [exact K1|].
    unfold need_more_tokens in En. apply orb_false_iff in En. destruct En as [En _]. destruct (tokens s1); [discriminate|discriminate].
Qed.

(** ** What the parser sees *)
Definition Sc (s : sst) (l : list token_data) : Prop := (exists k, Scn s k l) /\ stream_end_produced s = false /\ (token_available s = true -> tokens s <> []).
Lemma scn_front s k d l t r : Scn s k (d :: l) -> tokens s = t :: r -> t_data t = d.
Proof.
  intros H E. inversion H as [its ls' Hid Hb Hss Hin Hfl Hk Ht Hc Hr Hl Hok E1 E2|s0 m ls ls' its E0 HL Hr Hl Hok E1 E2|b I O E1 E2]; subst.
  - rewrite Ht in E. discriminate.
  - change (tokens (at_ s0 (texts its) m)) with (tokens s0) in E. rewrite E in E2. cbn [map app] in E2. congruence.
  - rewrite E in E2. cbn [map] in E2. congruence.
Qed.
Lemma peek_sc s d l : Sc s (d :: l) -> exists t r s', peek s = (Ok t, s') /\ t_data t = d /\ Sc s' (d :: l) /\ tokens s' = t :: r /\ token_available s' = true.
Proof.
  intros ((k & H) & He & Ha). unfold peek. rewrite bgt.
  assert (St : exists s1 k1, (if token_available s then ret tt else fetch_more_tokens) s = (Ok tt, s1) /\ Scn s1 k1 (d :: l) /\ kept s s1 /\ token_available s1 = true /\ tokens s1 <> []).
  { destruct (token_available s) eqn:E; [exists s, k; repeat split; auto|]. destruct (more_at _ _ _ H) as (s1 & k1 & A); [discriminate|]. exists s1, k1. exact A. }
  destruct St as (s1 & k1 & E1 & H1 & K1 & A1 & T1). rewrite (bok _ _ _ _ _ E1), bgt, A1. cbn [negb]. destruct (tokens s1) as [|t r] eqn:Et; [congruence|].
  exists t, r, s1. split; [reflexivity|]. split; [eapply scn_front; eassumption|]. split; [|auto]. split; [eauto|]. destruct K1. split; [congruence|congruence].
Qed.
Lemma set_front_sc s d l t r d' : Sc s (d :: l) -> tokens s = t :: r -> exists s', set_front d' s = (Ok tt, s') /\ Sc s' (d' :: l) /\ tokens s' = Mk_token d' (t_start t) (t_end t) :: r /\ token_available s' = token_available s.
Proof.
  intros ((k & H) & He & Ha) E. exists (set_tokens (Mk_token d' (t_start t) (t_end t) :: r) s). split; [unfold set_front, modify; rewrite E; reflexivity|]. split; [|split; reflexivity].
  split; [|split; [exact He|discriminate]]. exists k. inversion H as [its ls' Hid Hb Hss Hin Hfl Hk Ht Hc Hr Hl Hok E1 E2|s0 m ls ls' its E0 HL Hr Hl Hok E1 E2|b I O E1 E2]; subst.
  - rewrite Ht in E. discriminate.
  - change (tokens (at_ s0 (texts its) m)) with (tokens s0) in E. rewrite E in E2. cbn [map app] in E2. injection E2 as E2 E3.
    replace (d' :: l) with (map t_data (tokens (set_tokens (Mk_token d' (t_start t) (t_end t) :: r) s0)) ++ toks its ++ [TStreamEnd]) by (cbn [tokens set_tokens map t_data app]; rewrite E3; reflexivity).
    apply (Sc_go _ (set_tokens (Mk_token d' (t_start t) (t_end t) :: r) s0) m ls ls' its); auto. destruct HL as (I & Hz & Hnl). split; [apply inv_tokens, I|auto].
  - rewrite E in E2. cbn [map] in E2. injection E2 as E2 E3. replace (d' :: l) with (map t_data (tokens (set_tokens (Mk_token d' (t_start t) (t_end t) :: r) s))) by (cbn [tokens set_tokens map t_data]; rewrite E3; reflexivity).
    apply (Sc_end _ b); [apply inv_tokens, I|exact O].
Qed.
Lemma skip_sc s d l : Sc s (d :: l) -> tokens s <> [] -> exists s', skip_token s = (Ok tt, s') /\ stream_end_produced s' = match d with TStreamEnd => true | _ => false end /\ (stream_end_produced s' = false -> Sc s' l).
Proof.
  intros ((k & H) & He & Ha) Hn. unfold skip_token. cbv zeta. change (tokens (set_tokens_parsed (tokens_parsed s + 1) (set_token_available false s))) with (tokens s). destruct (tokens s) as [|t r] eqn:E; [congruence|].
  pose proof (scn_front _ _ _ _ _ _ H E) as Ed.
  eexists. split; [reflexivity|]. split; [unfold is_stream_end; rewrite <- Ed; destruct (t_data t); reflexivity|].
  intros Hse. split; [|split; [exact Hse|discriminate]]. exists k. inversion H as [its ls' Hid Hb Hss Hin Hfl Hk Ht Hc Hr Hl Hok E1 E2|s0 m ls ls' its E0 HL Hr Hl Hok E1 E2|b I O E1 E2]; subst.
  - rewrite Ht in E. discriminate.
  - change (tokens (at_ s0 (texts its) m)) with (tokens s0) in E. rewrite E in E2. cbn [map app] in E2. injection E2 as E3.
    set (s1 := set_stream_end_produced (is_stream_end t) (set_tokens r (set_tokens_parsed (tokens_parsed s0 + 1) (set_token_available false s0)))).
    change r with (tokens s1) in E3. rewrite <- E3. apply (Sc_go _ s1 m ls ls' its); auto. destruct HL as (I & Hz & Hnl). split; [destruct I; constructor; auto|auto].
  - rewrite E in E2. cbn [map] in E2. injection E2 as E3. rewrite <- E3.
    set (s1 := set_stream_end_produced (is_stream_end t) (set_tokens r (set_tokens_parsed (tokens_parsed s + 1) (set_token_available false s)))).
    change r with (tokens s1). apply (Sc_end _ b); [destruct I; constructor; auto|exact O].
Qed.
End items.
