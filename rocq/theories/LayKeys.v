(** LayKeys.v -- scalars the emitter writes as items of a layout; as simple keys they stay on one line. *)
From Coq Require Import Lia ZifyBool ZifyNat ZifyN Bool.
From Verif Require Import Base Utf Chars State Reader Scanner Wp ScanFacts RoundScan RoundPlain EState Emitter EmitText EmitScalar EmitQuoted EmitSingle EmitPlain Spec_Styles StyleFacts LayItems LayScan.
From Verif Require Spec_Lexical.
Import Spec_Lexical (breaks_line).
Open Scope N_scope.

(** ** Pieces on one line *)
Definition flat_atom (a : atom) : Prop := match a with ABreak _ _ => False | _ => True end.
Lemma den_line ats : Forall flat_atom ats -> forall g, g_ld g = false -> den g ats = flush_gap g ++ map aval ats.
Proof.
  induction 1 as [|a ats Ha H IH]; intros g Hg; cbn [den map]; [rewrite app_nil_r; reflexivity|]. destruct a; try contradiction Ha; cbn [word aval]; try (rewrite (IH g0 eq_refl); reflexivity).
  unfold gstep. rewrite Hg. rewrite IH by reflexivity. unfold flush_gap. cbn [g_ld g_ws]. rewrite Hg, <- app_assoc. reflexivity.
Qed.
Lemma cols_line ats : Forall flat_atom ats -> forall k x, k <= x -> cols k x ats.
Proof. induction 1 as [|a ats Ha H IH]; intros k x Hk; cbn [cols]; [exact Hk|]. destruct a; try contradiction Ha; try (split; [exact Hk|]); apply IH; lia. Qed.
Lemma hb_app a b : has_break (a ++ b) = has_break a || has_break b. Proof. apply existsb_app. Qed.
Lemma str_len_cons c (l : str) : str_len (c :: l) = len_utf8 c + str_len l. Proof. reflexivity. Qed.
Lemma str_len_app' (a b : str) : str_len (a ++ b) = str_len a + str_len b.
Proof. induction a as [|c a IH]; [reflexivity|]. cbn [app]. rewrite !str_len_cons, IH. lia. Qed.
Lemma is_break_line ch : breaks_line ch = is_break_c ch.
Proof. unfold breaks_line, is_break_c. destruct (ch =? 10), (ch =? 13), (ch =? 133), (ch =? 8232), (ch =? 8233); reflexivity. Qed.
Definition tame (t : str) : Prop := Forall (fun ch => ch < 128 /\ ch <> 10 /\ ch <> 13) t.
Lemma tame_facts t : tame t -> has_break t = false /\ str_len t = N.of_nat (length t).
Proof.
  induction 1 as [|ch t (H1 & H2 & H3) H [IH1 IH2]]; [split; reflexivity|]. split.
  - cbn [has_break existsb]. fold (has_break t). rewrite IH1, is_break_line. unfold is_break_c. lia.
  - rewrite str_len_cons, IH2. unfold len_utf8. cbn [length]. replace (ch <? 128) with true by lia. lia.
Qed.
Lemma hex_tame d : d < 16 -> hex_upper d < 128 /\ hex_upper d <> 10 /\ hex_upper d <> 13.
Proof. intros H. unfold hex_upper. destruct (d <? 10) eqn:E; lia. Qed.
Lemma hex_digits_tame n v : tame (hex_digits n v).
Proof. unfold hex_digits, tame. apply Forall_forall. intros x Hx. apply in_map_iff in Hx. destruct Hx as (k & <- & _). apply hex_tame. apply N.mod_lt. lia. Qed.
Lemma escape_tame ch : tame (92 :: escape_chars ch) /\ N.of_nat (length (escape_chars ch)) + 1 <= 4 * len_utf8 ch.
Proof.
  unfold escape_chars.
  repeat match goal with |- context [if ?a =? ?b then _ else _] => destruct (N.eqb_spec a b) as [->|?]; [split; [repeat constructor; lia|vm_compute; discriminate]|] end.
  assert (T : forall x m, x < 128 /\ x <> 10 /\ x <> 13 -> tame (92 :: x :: hex_digits m ch)).
  { intros x m Hx. constructor; [lia|]. constructor; [exact Hx|apply hex_digits_tame]. }
  unfold len_utf8. destruct (ch <=? 255) eqn:E1; [|destruct (ch <=? 65535) eqn:E2].
  - split; [apply T; lia|]. cbn [length]. rewrite hex_digits_length. destruct (ch <? 128), (ch <? 2048), (ch <? 65536); lia.
  - split; [apply T; lia|]. cbn [length]. rewrite hex_digits_length. replace (ch <? 128) with false by lia. destruct (ch <? 2048), (ch <? 65536); lia.
  - split; [apply T; lia|]. cbn [length]. rewrite hex_digits_length. replace (ch <? 128) with false by lia. replace (ch <? 2048) with false by lia. replace (ch <? 65536) with false by lia. lia.
Qed.

Section scalar.
Variable c : est.
Notation lf := (break_chars (em_line_break c)).
Definition on_line (ats : list atom) (v : str) : Prop := Forall flat_atom ats /\ map aval ats = v /\ has_break (flat ats) = false /\ str_len (flat ats) <= 4 * str_len v.
Lemma on_line_nil : on_line [] []. Proof. split; [constructor|]. split; [reflexivity|]. split; [reflexivity|]. vm_compute. discriminate. Qed.
Lemma on_line_cons a ats v : flat_atom a -> has_break (atext a) = false -> str_len (atext a) <= 4 * len_utf8 (aval a) -> on_line ats v -> on_line (a :: ats) (aval a :: v).
Proof.
  intros Ha Hb Hl (H1 & H2 & H3 & H4). split; [constructor; assumption|]. split; [cbn [map]; rewrite H2; reflexivity|]. rewrite flat_cons, hb_app, str_len_app', str_len_cons, Hb. split; [exact H3|lia].
Qed.
Lemma char_line ch : is_break_c ch = false -> has_break [ch] = false /\ str_len [ch] <= 4 * len_utf8 ch.
Proof. intros H. split; [cbn; rewrite is_break_line, H; reflexivity|]. rewrite str_len_cons. change (str_len []) with 0. lia. Qed.

Lemma key_double : forall (l : str) sp fs x y w i, Forall (fun ch : char => is_scalar ch = true) l ->
  exists ats x', runs (double_loop false sp fs l) (mv x y w i c) (flat ats) (Ok tt) (mv x' y w i c) /\ Forall (awf false lf) ats /\ on_line ats l.
Proof.
  induction l as [|ch r IH]; intros sp fs x y w i Hs; cbn [double_loop]; [exists [], x; split; [apply runs_ret|]; split; [apply Forall_nil|]; apply on_line_nil|].
  pose proof (Forall_inv Hs) as Hch. apply Forall_inv_tail in Hs. destruct (needs_escape (em_unicode c) ch) eqn:Ene.
  - destruct (IH false false (x + 1 + Z.of_nat (length (escape_chars ch)))%Z y w i Hs) as (ats & x' & R & F & L). exists (AEsc (escape_chars ch) ch :: ats), x'. split; [|split].
    + apply runs_get; [reflexivity|]. change (em_unicode (mv x y w i c)) with (em_unicode c). rewrite Ene, flat_cons. cbn [atext].
      refine (runs_seq _ _ _ [92] _ _ _ _ (r_put _ _ _ _ _ _) _). refine (runs_seq _ _ _ _ _ _ _ _ (r_iter_put _ _ _ _ _ _) _). exact R.
    + constructor; [split; [reflexivity|apply escape_esc, Hch]|exact F].
    + destruct (escape_tame ch) as [T1 T2]. destruct (tame_facts _ T1) as [T3 T4]. apply on_line_cons; [exact Logic.I|exact T3|cbn [atext]; rewrite T4; cbn [length aval]; lia|exact L].
  - assert (Hbr : is_break_c ch = false /\ ch <> 34 /\ ch <> 92 /\ is_printable ch = true).
    { unfold needs_escape in Ene. rewrite !orb_false_iff in Ene. destruct Ene as (((((E1 & _) & _) & E2) & E3) & E4). split; [exact E2|]. split; [lia|]. split; [lia|]. destruct (is_printable ch); [reflexivity|discriminate]. }
    destruct Hbr as (Hbr & H34 & H92 & Hpr). pose proof (char_line ch Hbr) as [C1 C2]. destruct (N.eqb_spec ch 32) as [-> |Hsp].
    + destruct (IH true false (x + 1)%Z y w i Hs) as (ats & x' & R & F & L). exists (ASpace :: ats), x'. split; [|split].
      * apply runs_get; [reflexivity|]. change (em_unicode (mv x y w i c)) with (em_unicode c). rewrite Ene, flat_cons. change (32 =? 32) with true. cbn [atext andb].
        refine (runs_seq _ _ _ [32] _ _ _ _ (r_write_char _ _ _ _ _ _) R).
      * constructor; [exact Logic.I|exact F].
      * apply on_line_cons; [exact Logic.I|exact C1|exact C2|exact L].
    + destruct (IH false false (x + 1)%Z y w i Hs) as (ats & x' & R & F & L). exists (AChar ch :: ats), x'. split; [|split].
      * apply runs_get; [reflexivity|]. change (em_unicode (mv x y w i c)) with (em_unicode c). rewrite Ene, flat_cons. replace (ch =? 32) with false by lia. cbn [atext].
        refine (runs_seq _ _ _ [ch] _ _ _ _ (r_write_char _ _ _ _ _ _) R).
      * constructor; [|exact F]. cbn [awf].
        assert (Hbl : is_blankz (Some ch) = false).
        { unfold is_blankz, is_breakz, is_blank, is_space, is_tab. cbn [chk is_z is_break]. rewrite Hbr. apply printable_spec in Hpr. unfold printable in Hpr. clear -Hsp Hpr. lia. }
        split; [exact Hbl|]. split; [exact H34|]. right. split; [exact H92|]. clear -Hpr; unfold is_printable, allowed_char, in_range in *; destruct (_ || _ || _); [discriminate|lia].
      * apply on_line_cons; [exact Logic.I|exact C1|exact C2|exact L].
Qed.
Lemma key_single u : forall (l : str) sp fs x y w i, Forall (writable u) l -> Forall (fun ch => ~ line_break ch) l ->
  exists ats x' i', runs (single_loop false sp false fs l) (mv x y w i c) (flat ats) (Ok false) (mv x' y w i' c) /\ Forall (awf true lf) ats /\ on_line ats l.
Proof.
  induction l as [|ch r IH]; intros sp fs x y w i Hw Hn; cbn [single_loop]; [exists [], x, i; split; [apply runs_ret|]; split; [apply Forall_nil|]; apply on_line_nil|].
  pose proof (Forall_inv Hw) as Hch. apply Forall_inv_tail in Hw. pose proof (Forall_inv Hn) as Hbr. apply Forall_inv_tail in Hn. cbv beta in Hbr.
  assert (Eb : is_break_c ch = false) by (destruct (is_break_c ch) eqn:E; [apply break_c_line in E; contradiction|reflexivity]).
  pose proof (char_line ch Eb) as [C1 C2]. destruct (N.eqb_spec ch 32) as [-> |Hsp].
  - destruct (IH true false (x + 1)%Z y w i Hw Hn) as (ats & x' & i' & R & F & L). exists (ASpace :: ats), x', i'. split; [|split].
    + apply runs_get; [reflexivity|]. cbn [andb]. rewrite flat_cons. refine (runs_seq _ _ _ [32] _ _ _ _ (r_write_char _ _ _ _ _ _) R).
    + constructor; [exact Logic.I|exact F].
    + apply on_line_cons; [exact Logic.I|exact C1|exact C2|exact L].
  - rewrite Eb. cbn [when]. 
    assert (Hbl : is_blankz (Some ch) = false).
    { unfold is_blankz, is_breakz, is_blank, is_space, is_tab. cbn [chk is_z is_break]. rewrite Eb. pose proof (writable_tab _ _ Hch) as Ht. clear -Hsp Ht. lia. }
    set (x1 := (x + (if (ch =? 39)%N then 1 else 0) + 1)%Z).
    destruct (IH false false x1 y w false Hw Hn) as (ats & x' & i' & R & F & L). exists ((if ch =? 39 then AQuote else AChar ch) :: ats), x', i'. split; [|split].
    + rewrite flat_cons. refine (runs_seq _ _ _ [] _ _ _ _ (runs_ret tt _) _).
      replace (atext (if ch =? 39 then AQuote else AChar ch) ++ flat ats) with ((if ch =? 39 then [39] else []) ++ [ch] ++ flat ats) by (destruct (N.eqb_spec ch 39) as [-> |]; reflexivity).
      refine (runs_seq _ _ _ _ (mv (x + (if (ch =? 39)%N then 1 else 0)) y w i c) _ _ _ _ _).
      { destruct (ch =? 39); cbn [when]; [apply r_put|]. rewrite Z.add_0_r. apply runs_ret. }
      refine (runs_seq _ _ _ _ _ _ _ _ (r_write_char _ _ _ _ _ _) _). refine (runs_seq _ _ _ [] _ _ _ _ (r_set_indention _ _ _ _ _ _) R).
    + constructor; [|exact F]. destruct (N.eqb_spec ch 39) as [-> |H39]; cbn [awf]; [reflexivity|]. split; [exact Hbl|]. split; [exact H39|left; reflexivity].
    + destruct (N.eqb_spec ch 39) as [-> |H39].
      * apply (on_line_cons AQuote ats r); [exact Logic.I|reflexivity|vm_compute; discriminate|exact L].
      * apply (on_line_cons (AChar ch) ats r); [exact Logic.I|exact C1|exact C2|exact L].
Qed.
Lemma key_plain flow : forall (l : str) sp prev x y w i, pl_ok flow prev l -> Forall (fun ch => ~ line_break ch) l ->
  exists ats x' i', runs (plain_loop false sp false l) (mv x y w i c) (flat ats) (Ok tt) (mv x' y w i' c) /\ pw flow prev lf ats /\ (is_blankz (hd_error l) = false -> hd_word ats) /\ on_line ats l.
Proof.
  induction l as [|ch r IH]; intros sp prev x y w i Hp Hn; cbn [plain_loop pl_ok] in *; [exists [], x, i; split; [apply runs_ret|]; split; [exact Hp|]; split; [discriminate|]; apply on_line_nil|].
  pose proof (Forall_inv Hn) as Hbr. apply Forall_inv_tail in Hn. cbv beta in Hbr.
  assert (Eb : is_break_c ch = false) by (destruct (is_break_c ch) eqn:E; [apply break_c_line in E; contradiction|reflexivity]).
  pose proof (char_line ch Eb) as [C1 C2]. destruct (N.eqb_spec ch 32) as [-> |Hsp].
  - destruct (IH true false (x + 1)%Z y w i Hp Hn) as (ats & x' & i' & R & F & _ & L). exists (ASpace :: ats), x', i'. split; [|split; [exact F|split; [discriminate|]]].
    + apply runs_get; [reflexivity|]. cbn [andb]. rewrite flat_cons. refine (runs_seq _ _ _ [32] _ _ _ _ (r_write_char _ _ _ _ _ _) R).
    + apply on_line_cons; [exact Logic.I|exact C1|exact C2|exact L].
  - rewrite Eb. cbn [when]. destruct Hp as (P1 & P2 & P3 & P4).
    destruct (IH false true (x + 1)%Z y w false P4 Hn) as (ats & x' & i' & R & F & Hw & L). exists (AChar ch :: ats), x', i'. split; [|split; [|split; [reflexivity|]]].
    + rewrite flat_cons. refine (runs_seq _ _ _ [] _ _ _ _ (runs_ret tt _) _). refine (runs_seq _ _ _ [ch] _ _ _ _ (r_write_char _ _ _ _ _ _) _). refine (runs_seq _ _ _ [] _ _ _ _ (r_set_indention _ _ _ _ _ _) R).
    + cbn [pw]. split; [exact P1|]. split; [intros E; apply Hw, P2, E|]. split; [exact P3|exact F].
    + apply on_line_cons; [exact Logic.I|exact C1|exact C2|exact L].
Qed.

(** ** Scalars as items *)
Hypothesis Hind : (1 <= em_indent c)%Z.
Definition style_text (u flow : bool) (sty : scalar_style) (v : str) : Prop :=
  match sty with SDouble => True | SSingle => single_text u v | SPlain => v <> [] /\ plain_text u flow v | _ => False end.
Definition leaf (flow : bool) (k : N) (it : item) : Prop := match it with IQuoted _ _ => True | IPlain f k' _ => f = flow /\ k' = k | _ => False end.
Lemma scalar_item u flow k sty v x y w i : style_text u flow sty v -> Forall (fun ch : char => is_scalar ch = true) v -> 1 <= k -> k <= Z.to_N (em_indent c) ->
  (em_simple_key_context c = true -> Forall (fun ch => ~ line_break ch) v) ->
  exists it x' y', runs (process_scalar v sty) (mv x y w i c) ((if negb w then [32] else []) ++ itext lf it) (Ok tt) (mv x' y' false false c) /\ item_ok lf it /\ itok it = [TScalar v sty] /\
    leaf flow k it /\ (em_simple_key_context c = true -> has_break (itext lf it) = false /\ str_len (itext lf it) <= 4 * str_len v + 2).
Proof.
  intros Hs Hv Hk1 Hk2 Hn. unfold process_scalar.
  assert (G : forall (m : bool -> M est unit) P, (exists it x' y', runs (m (negb (em_simple_key_context c))) (mv x y w i c) ((if negb w then [32] else []) ++ itext lf it) (Ok tt) (mv x' y' false false c) /\ P it) ->
    exists it x' y', runs (s <- get ;; m (negb (em_simple_key_context s))) (mv x y w i c) ((if negb w then [32] else []) ++ itext lf it) (Ok tt) (mv x' y' false false c) /\ P it).
  { intros m P (it & x' & y' & R & HP). exists it, x', y'. split; [|exact HP]. apply runs_get; [reflexivity|]. exact R. }
  destruct sty; try contradiction Hs; cbn [style_text] in Hs.
  - (* plain *)
    apply (G (fun b => write_plain_scalar v b)). clear G. set (ab := negb (em_simple_key_context c)). destruct Hs as [Hne Hpt]. destruct v as [|ch r]; [congruence|].
    destruct (pt_first _ _ _ Hpt ch r eq_refl) as (F1 & F2 & F4 & F5 & F6). set (x0 := (x + (if negb w then 1 else 0))%Z).
    assert (L : exists ats x' y' w' i', runs (plain_loop ab false false r) (mv (x0 + 1) y w false c) (flat ats) (Ok tt) (mv x' y' w' i' c) /\ pw flow true lf ats /\ (is_blankz (hd_error r) = false -> hd_word ats) /\ den g0 ats = r /\
      cols k k ats /\ (em_simple_key_context c = true -> has_break (flat ats) = false /\ str_len (flat ats) <= 4 * str_len r)).
    { subst ab. destruct (em_simple_key_context c); cbn [negb].
      - destruct (key_plain flow r false true (x0 + 1)%Z y w false F6 (Forall_inv_tail (Hn eq_refl))) as (ats & x' & i' & R & P & W & L1 & L2 & L3 & L4). exists ats, x', y, w, i'. split; [exact R|]. split; [exact P|]. split; [exact W|].
        split; [rewrite (den_line ats L1 g0 eq_refl); exact L2|]. split; [apply cols_line; [exact L1|lia]|]. auto.
      - destruct (pieces_plain c true flow Hind r false (x0 + 1)%Z y w false F6 ltac:(reflexivity)) as (ats & x' & y' & w' & i' & R & P & W & D & C). exists ats, x', y', w', i'. split; [exact R|]. split; [exact P|]. split; [exact W|].
        split; [rewrite D; [reflexivity|split; reflexivity|reflexivity|discriminate]|]. split; [apply C; lia|discriminate]. }
    destruct L as (ats & x' & y' & w' & i' & R & P & W & D & C & K). exists (IPlain flow k (AChar ch :: ats)), x', y'.
    assert (Ebr : is_break_c ch = false) by (destruct F2 as [Pb _]; unfold is_blankz, is_breakz in Pb; cbn [is_break] in Pb; apply orb_false_iff in Pb; destruct Pb as [_ Pb]; apply orb_false_iff in Pb; tauto).
    split; [|split; [|split; [|split; [split; reflexivity|]]]].
    + unfold write_plain_scalar. apply runs_get; [reflexivity|]. refine (runs_seq _ _ _ _ (mv x0 y w i c) _ _ _ _ _).
      { change (em_whitespace (mv x y w i c)) with w. subst x0. destruct w; cbn [negb andb when is_empty orb]; [rewrite Z.add_0_r; apply runs_ret|]. apply r_put. }
      cbn [itext]. rewrite <- (app_nil_r (flat (AChar ch :: ats))). refine (runs_seq _ _ _ _ _ _ _ _ _ (r_set_ws _ _ _ _ _ _ _)).
      cbn [plain_loop]. replace (ch =? 32) with false by (clear -F1; lia). rewrite Ebr, flat_cons. change (atext (AChar ch) ++ flat ats) with ([] ++ [ch] ++ flat ats). refine (runs_seq _ _ _ _ _ _ _ _ (runs_ret tt _) _).
      refine (runs_seq _ _ _ _ _ _ _ _ (r_write_char _ _ _ _ _ _) _). refine (runs_seq _ _ _ [] _ _ _ _ (r_set_indention _ _ _ _ _ _) R).
    + exists u, (ch :: r). split; [exact Hpt|]. split; [exact Hne|]. split; [cbn [pw]; split; [exact F2|]; split; [intros E; apply W, F4, E|]; split; [intros E; contradiction|exact P]|]. split; [reflexivity|].
      split; [cbn [den word aval flush_gap g0 g_ld g_ws app]; fold g0; rewrite D; reflexivity|]. split; [exact C|]. split; [exact Hk1|exact W].
    + cbn [itok den word aval flush_gap g0 g_ld g_ws app]. fold g0. rewrite D. reflexivity.
    + intros E. destruct (K E) as [K1 K2]. cbn [itext]. rewrite flat_cons. cbn [atext]. destruct (char_line ch Ebr) as [C1 C2]. rewrite hb_app, K1, C1, str_len_app', (str_len_cons ch r). split; [reflexivity|]. lia.
  - (* single *)
    apply (G (fun b => write_single_quoted_scalar v b)). clear G. set (ab := negb (em_simple_key_context c)). destruct Hs as (Hw & Hbs & Hsb). set (x0 := (x + (if negb w then 1 else 0) + 1)%Z).
    assert (L : exists ats b xa ya wa ia x2 y2 w2 i2 tl, runs (single_loop ab false false true v) (mv x0 y false (i && false) c) (flat ats) (Ok b) (mv xa ya wa ia c) /\ runs (when b write_indent) (mv xa ya wa ia c) (flat tl) (Ok tt) (mv x2 y2 w2 i2 c) /\
      Forall (awf true lf) (ats ++ tl) /\ den g0 (ats ++ tl) = v /\ (forall x, cols 1 (x + 1) (ats ++ tl)) /\ (em_simple_key_context c = true -> has_break (flat (ats ++ tl)) = false /\ str_len (flat (ats ++ tl)) <= 4 * str_len v)).
    { subst ab. destruct (em_simple_key_context c); cbn [negb].
      - destruct (key_single u v false true x0 y false (i && false) Hw (Hn eq_refl)) as (ats & x' & i' & R & P & L1 & L2 & L3 & L4). exists ats, false, x', y, false, i', x', y, false, i', []. rewrite app_nil_r. split; [exact R|]. split; [apply runs_ret|].
        split; [exact P|]. split; [rewrite (den_line ats L1 g0 eq_refl); exact L2|]. split; [intros z; apply cols_line; [exact L1|lia]|]. auto.
      - destruct (single_text_pieces c true Hind u v false false true x0 y false (i && false) Hw Hbs Hsb) as (ats & b & x' & y' & w' & i' & R & B & F & D & C); [split; discriminate|discriminate|intros _ _; apply andb_false_r|].
        assert (R2 : exists x2 y2 w2 i2, runs (when b write_indent) (mv x' y' w' i' c) (flat (tl_ c b)) (Ok tt) (mv x2 y2 w2 i2 c)).
        { destruct b; cbn [when tl_].
          - destruct (B eq_refl) as [-> ->]. rewrite repeat_flat. eexists _, _, _, _. rewrite <- (Z.sub_0_r (em_indent c)) at 1. apply r_write_indent_stay; lia.
          - eexists _, _, _, _. apply runs_ret. }
        destruct R2 as (x2 & y2 & w2 & i2 & R2). exists ats, b, x', y', w', i', x2, y2, w2, i2, (tl_ c b). split; [exact R|]. split; [exact R2|]. split; [exact F|].
        split; [rewrite D; [reflexivity|split; reflexivity|reflexivity]|]. split; [intros z; apply C; [intros _; lia|lia]|discriminate]. }
    destruct L as (ats & b & xa & ya & wa & ia & x2 & y2 & w2 & i2 & tl & R & R2 & F & D & C & K). exists (IQuoted true (ats ++ tl)). eexists _, _.
    split; [|split; [|split; [|split; [exact Logic.I|]]]].
    + unfold write_single_quoted_scalar. cbn [itext quote_char]. rewrite flat_app. change (39 :: (flat ats ++ flat tl) ++ [39]) with ([39] ++ (flat ats ++ flat tl) ++ [39]). rewrite app_assoc, <- (app_assoc (flat ats)).
      refine (runs_seq _ _ _ _ _ _ _ _ (r_write_indicator _ [39] true false false _ _ _ _) _). refine (runs_bind _ _ _ _ _ _ _ _ _ R _). cbv beta.
      refine (runs_seq _ _ _ _ _ _ _ _ R2 _). rewrite <- (app_nil_r [39]). refine (runs_seq _ _ _ _ _ _ _ _ (r_write_indicator _ [39] false false false _ _ _ _) _). apply r_set_ws.
    + split; [exact F|]. split; [exact C|]. intros _. rewrite D. eapply Forall_impl; [|exact Hw]. intros ch [Hp _]. unfold Spec_Styles.printable in Hp. unfold allowed_char, in_range. lia.
    + cbn [itok]. rewrite D. reflexivity.
    + intros E. destruct (K E) as [K1 K2]. cbn [itext]. change (quote_char true :: flat (ats ++ tl) ++ [quote_char true]) with ([39] ++ flat (ats ++ tl) ++ [39]). rewrite !hb_app, !str_len_app', K1. split; [reflexivity|]. change (str_len [39]) with 1. lia.
  - (* double *)
    apply (G (fun b => write_double_quoted_scalar v b)). clear G. set (ab := negb (em_simple_key_context c)). set (x0 := (x + (if negb w then 1 else 0) + 1)%Z).
    assert (L : exists ats xa ya wa ia, runs (double_loop ab false true v) (mv x0 y false (i && false) c) (flat ats) (Ok tt) (mv xa ya wa ia c) /\
      Forall (awf false lf) ats /\ den g0 ats = v /\ (forall x, cols 1 (x + 1) ats) /\ (em_simple_key_context c = true -> has_break (flat ats) = false /\ str_len (flat ats) <= 4 * str_len v)).
    { subst ab. destruct (em_simple_key_context c); cbn [negb].
      - destruct (key_double v false true x0 y false (i && false) Hv) as (ats & x' & R & P & L1 & L2 & L3 & L4). exists ats, x', y, false, (i && false). split; [exact R|].
        split; [exact P|]. split; [rewrite (den_line ats L1 g0 eq_refl); exact L2|]. split; [intros z; apply cols_line; [exact L1|lia]|]. auto.
      - destruct (double_text c true Hind (length v) v false true x0 y false (i && false)) as (ats & x' & y' & w' & i' & R & F & D & C); [lia|exact Hv|rewrite andb_false_r; discriminate|].
        exists ats, x', y', w', i'. split; [exact R|]. split; [exact F|]. split; [rewrite (D g0); [reflexivity|split; reflexivity|split; [reflexivity|discriminate]]|]. split; [intros z; apply C; lia|discriminate]. }
    destruct L as (ats & xa & ya & wa & ia & R & F & D & C & K). exists (IQuoted false ats). eexists _, _.
    split; [|split; [|split; [|split; [exact Logic.I|]]]].
    + unfold write_double_quoted_scalar. cbn [itext quote_char]. change (34 :: flat ats ++ [34]) with ([34] ++ flat ats ++ [34]). rewrite app_assoc.
      refine (runs_seq _ _ _ _ _ _ _ _ (r_write_indicator _ [34] true false false _ _ _ _) _). refine (runs_seq _ _ _ _ _ _ _ _ R _).
      rewrite <- (app_nil_r [34]). refine (runs_seq _ _ _ _ _ _ _ _ (r_write_indicator _ [34] false false false _ _ _ _) _). apply r_set_ws.
    + split; [exact F|]. split; [exact C|]. discriminate.
    + cbn [itok]. rewrite D. reflexivity.
    + intros E. destruct (K E) as [K1 K2]. cbn [itext]. change (quote_char false :: flat ats ++ [quote_char false]) with ([34] ++ flat ats ++ [34]). rewrite !hb_app, !str_len_app', K1. split; [reflexivity|]. change (str_len [34]) with 1. lia.
Qed.
End scalar.
