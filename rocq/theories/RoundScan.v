(** RoundScan.v -- reading quoted scalars: the scanner on a text made of given pieces.

    The lemmas are about states in which all of the text is in the buffer ([ideal]); Chunk.v carries
    them to every state with the same text to come. *)
From Coq Require Import Lia ZifyBool ZifyNat ZifyN Bool.
From Verif Require Import Base Utf Chars State Reader Scanner.
Open Scope N_scope.

Definition ideal (s : sst) : Prop := eof s = true /\ enc s = Utf8 /\ src s <> None.
Definition at_ (s : sst) (tx : str) (m : mark) : sst := set_pos m (set_buffer tx s).
Lemma at_id s : s = at_ s (buffer s) (pos s). Proof. destruct s; reflexivity. Qed.
Lemma bok {S A B} (m : M S A) (k : A -> M S B) s a s' : m s = (Ok a, s') -> bind m k s = k a s'.
Proof. unfold bind. intros ->. reflexivity. Qed.
Lemma bgt {S A} (k : S -> M S A) s : bind get k s = k s s. Proof. reflexivity. Qed.
Lemma fill_loop_eof n s : eof s = true -> (length (buffer s) < n)%nat -> fill_loop n s = (Ok true, s).
Proof.
  intros He Hn. unfold fill_loop, loop. cbn [loopM]. unfold bind, get. replace (Nat.ltb (length (buffer s)) n) with true by (symmetry; apply Nat.ltb_lt; lia).
  rewrite He. reflexivity.
Qed.
Lemma c_cache n s : ideal s -> cache n s = (Ok tt, s).
Proof.
  intros (He & Hu & Hs). unfold cache. rewrite bgt. destruct (Nat.leb_spec n (length (buffer s))) as [H|H]; [reflexivity|].
  unfold update_buffer. rewrite bgt. destruct (src s) as [i|] eqn:Ei; [|congruence].
  destruct (Nat.leb_spec n (length (buffer s))) as [H'|_]; [lia|]. rewrite Hu. cbn [encoding_eqb]. rewrite (bok (ret false) _ s false s eq_refl).
  rewrite (bok _ _ s true s (fill_loop_eof n s He H)). reflexivity.
Qed.
Lemma ideal_at s tx m : ideal s -> ideal (at_ s tx m). Proof. exact (fun H => H). Qed.

(** Loops. *)
Inductive lr {A B} (body : A -> M sst (A + B)) : A -> sst -> B -> sst -> Prop :=
| lr_stop a s b s' : body a s = (Ok (inr b), s') -> lr body a s b s'
| lr_go a s a1 s1 b s' : body a s = (Ok (inl a1), s1) -> (meas s1 < meas s)%nat -> lr body a1 s1 b s' -> lr body a s b s'.
Lemma lr_loopM {A B} (body : A -> M sst (A + B)) a s b s' : lr body a s b s' -> forall n, (meas s < n)%nat -> loopM n body a s = (Ok b, s').
Proof.
  induction 1 as [a s b s' H|a s a1 s1 b s' H Hm _ IH]; intros n Hn; (destruct n as [|n]; [lia|]); cbn [loopM]; rewrite (bok _ _ _ _ _ H); [reflexivity|].
  apply IH. lia.
Qed.
Lemma lr_loop {A B} (body : A -> M sst (A + B)) a s b s' : lr body a s b s' -> loop body a s = (Ok b, s').
Proof. intros H. apply (lr_loopM _ _ _ _ _ H). lia. Qed.
Lemma meas_at s t m : meas (at_ s t m) = (length t + match src s with Some i => src_size i | None => 0 end)%nat.
Proof. reflexivity. Qed.

Lemma meas_lt s t t' m m' : (length t < length t')%nat -> (meas (at_ s t m) < meas (at_ s t' m'))%nat.
Proof. rewrite !meas_at. lia. Qed.
Ltac shorter := apply meas_lt; cbn [length app]; rewrite ?app_length; cbn [length]; unfold str, char in *; lia.

(** ** Pieces of a quoted or plain scalar *)
Inductive atom :=
| AChar (c : char)               (* a character that stands for itself *)
| AEsc (e : str) (c : char)      (* an escape sequence for [c] *)
| AQuote                         (* two single quotes *)
| ASpace                         (* a space *)
| ABreak (t : str) (c : char).   (* a line break written [t], read as [c] *)
Definition atext (a : atom) : str :=
  match a with AChar c => [c] | AEsc e _ => 92 :: e | AQuote => [39; 39] | ASpace => [32] | ABreak t _ => t end.
Definition aval (a : atom) : char := match a with AChar c | AEsc _ c | ABreak _ c => c | AQuote => 39 | ASpace => 32 end.
Definition word (a : atom) : bool := match a with ASpace | ABreak _ _ => false | _ => true end.
Definition flat (l : list atom) : str := flat_map atext l.
Lemma flat_cons a l : flat (a :: l) = atext a ++ flat l. Proof. reflexivity. Qed.
Lemma flat_app a b : flat (a ++ b) = flat a ++ flat b. Proof. apply flat_map_app. Qed.
(** Escape sequences *)
Definition esc (e : str) (c : char) : Prop :=
  match e with
  | x :: r => is_break_c x = false /\ is_scalar c = true /\
      match escape_code x with
      | Some (inl d) => r = [] /\ d = c
      | Some (inr n) => length r = n /\ hex_value n r 0 = Some c
      | None => False
      end
  | [] => False
  end.
(** Line breaks, when a line feed is written [lf]. *)
Definition brk (lf t : str) (c : char) : Prop := c = 10 /\ t = lf \/ (c = 8232 \/ c = 8233) /\ t = [c].
Definition lf_ok (lf : str) : Prop := lf = [10] \/ lf = [13] \/ lf = [13; 10].
Definition awf (single : bool) (lf : str) (a : atom) : Prop :=
  match a with
  | AChar c => is_blankz (Some c) = false /\ c <> quote_char single /\ (single = true \/ c <> 92 /\ allowed_char c = true)
  | AEsc e c => single = false /\ esc e c
  | AQuote => single = true
  | ASpace => True
  | ABreak t c => brk lf t c
  end.

(** What a run of spaces and breaks stands for. *)
Record gap := Mk_gap { g_lb : str; g_tb : str; g_ws : str; g_ld : bool }.
Definition g0 : gap := Mk_gap [] [] [] false.
Definition gstep (g : gap) (a : atom) : gap :=
  match a with
  | ABreak _ c => if g_ld g then Mk_gap (g_lb g) (g_tb g ++ [c]) (g_ws g) true else Mk_gap (g_lb g ++ [c]) (g_tb g) [] true
  | _ => if g_ld g then g else Mk_gap (g_lb g) (g_tb g) (g_ws g ++ [32]) false
  end.
Definition flush_gap (g : gap) : str := if g_ld g then fold_breaks [] (g_lb g) (g_tb g) else g_ws g.
(** What a list of pieces stands for. *)
Fixpoint den (g : gap) (l : list atom) : str :=
  match l with
  | [] => flush_gap g
  | a :: r => if word a then flush_gap g ++ aval a :: den g0 r else den (gstep g a) r
  end.
(** Columns: at a line break the column is 0; a word and the end stand at least at column [k]. *)
Fixpoint cols (k x : N) (l : list atom) : Prop :=
  match l with
  | [] => k <= x
  | a :: r => match a with
              | ASpace => cols k (x + 1) r
              | ABreak _ _ => cols k 0 r
              | _ => k <= x /\ cols k (x + 1) r
              end
  end.
Lemma cols_mono k l : forall x y, x <= y -> cols k x l -> cols k y l.
Proof.
  induction l as [|a l IH]; intros x y H; cbn [cols]; [lia|]. destruct a; try (intros [H1 H2]; split; [lia|]; apply (IH (x + 1)); [lia|exact H2]); auto.
  apply IH. lia.
Qed.

Lemma fold_breaks_app s l t : fold_breaks s l t = s ++ fold_breaks [] l t.
Proof. unfold fold_breaks. destruct (starts_with _ _); [destruct (is_empty _)|]; reflexivity. Qed.
Definition gok (g : gap) : Prop := if g_ld g then g_ws g = [] else g_lb g = [] /\ g_tb g = [].
Lemma gok_step g a : gok g -> gok (gstep g a).
Proof. unfold gok. destruct g as [lb tb ws ld]; cbn [g_ld g_ws g_lb g_tb]. destruct a; destruct ld; cbn; auto. Qed.
Lemma gok_fold l : forall g, gok g -> gok (fold_left gstep l g).
Proof. induction l as [|a l IH]; intros g H; [exact H|]. cbn. apply IH, gok_step, H. Qed.
Lemma den_words w r : forallb word w = true -> den g0 (w ++ r) = map aval w ++ den g0 r.
Proof. induction w as [|a w IH]; [reflexivity|]. cbn. intros H. apply andb_true_iff in H. destruct H as [-> H]. rewrite IH by exact H. reflexivity. Qed.
Lemma den_gap g r : forallb (fun a => negb (word a)) g = true -> match r with a :: _ => word a = true | [] => True end ->
  forall x, den x (g ++ r) = flush_gap (fold_left gstep g x) ++ den g0 r.
Proof.
  intros H Hr. induction g as [|a g IH]; intros x; cbn [app den fold_left].
  - destruct r as [|a r]; cbn [den]; [rewrite app_nil_r; reflexivity|]. rewrite Hr. reflexivity.
  - cbn in H. apply andb_true_iff in H. destruct H as [H1 H2]. apply negb_true_iff in H1. rewrite H1. apply IH, H2.
Qed.
Fixpoint span {A} (f : A -> bool) (l : list A) : list A * list A :=
  match l with [] => ([], []) | a :: r => if f a then let (x, y) := span f r in (a :: x, y) else ([], l) end.
Lemma span_app {A} (f : A -> bool) l : l = fst (span f l) ++ snd (span f l).
Proof. induction l as [|a l IH]; [reflexivity|]. cbn. destruct (f a); [|reflexivity]. destruct (span f l). cbn in *. congruence. Qed.
Lemma span_all {A} (f : A -> bool) l : forallb f (fst (span f l)) = true.
Proof. induction l as [|a l IH]; [reflexivity|]. cbn. destruct (f a) eqn:E; [|reflexivity]. destruct (span f l). cbn in *. rewrite E. exact IH. Qed.
Lemma span_hd {A} (f : A -> bool) l : match snd (span f l) with a :: _ => f a = false | [] => True end.
Proof. induction l as [|a l IH]; [exact I|]. cbn. destruct (f a) eqn:E; [destruct (span f l); exact IH|exact E]. Qed.

(** ** The inner loops *)
Section scan.
Variables (s : sst) (single : bool) (lf : str).
Hypothesis Hid : ideal s.
Hypothesis Hlf : lf_ok lf.
Notation at_ := (at_ s).
Lemma c_at n tx m : cache n (at_ tx m) = (Ok tt, at_ tx m). Proof. apply c_cache, Hid. Qed.
Lemma skip_at c tx m : skip_char (at_ (c :: tx) m) = (Ok tt, at_ tx (advance (len_utf8 c) m)). Proof. reflexivity. Qed.
Lemma read_at c tx m x : read_char x (at_ (c :: tx) m) = (Ok (x ++ [c]), at_ tx (advance (len_utf8 c) m)). Proof. reflexivity. Qed.
Lemma rlb_at t c tx m x : brk lf t c -> match tx with 10 :: _ => lf <> [13] | _ => True end ->
  exists n, read_line_break x (at_ (t ++ tx) m) = (Ok (x ++ [c]), at_ tx (next_line n m)).
Proof.
  intros [[-> ->]|[[-> | ->] ->]] Ht; [|eexists; reflexivity|eexists; reflexivity].
  destruct Hlf as [-> |[-> | ->]]; [eexists; reflexivity| |eexists; reflexivity].
  destruct tx as [|d tx]; [eexists; reflexivity|]. exists 1. unfold read_line_break. cbn [buffer RoundScan.at_ set_pos set_buffer app nth_error].
  cbn [chk]. destruct (N.eqb_spec d 10) as [-> |]; [congruence|reflexivity].
Qed.
Lemma esc_at sm e c tx m x : esc e c -> exists m', scan_escape sm x (at_ (92 :: e ++ tx) m) = (Ok (x ++ [c]), at_ tx m') /\ m_col m + 1 <= m_col m'.
Proof.
  unfold esc. destruct e as [|d e]; [contradiction|]. intros (_ & Hsc & H). unfold scan_escape.
  rewrite bgt. cbn [bget buffer RoundScan.at_ set_pos set_buffer app nth_error].
  destruct (escape_code d) as [[d'|n]|]; [| |contradiction].
  - destruct H as [-> ->]. cbn [app]. change (set_pos m (set_buffer (92 :: d :: tx) s)) with (at_ (92 :: d :: tx) m).
    rewrite (bok _ _ _ _ _ (skip_at _ _ _)), (bok _ _ _ _ _ (skip_at _ _ _)). eexists. split; [reflexivity|]. cbn. lia.
  - destruct H as [Hl Hv]. change (set_pos m (set_buffer (92 :: d :: e ++ tx) s)) with (at_ (92 :: d :: e ++ tx) m).
    rewrite (bok _ _ _ _ _ (skip_at _ _ _)), (bok _ _ _ _ _ (skip_at _ _ _)), (bok _ _ _ _ _ (c_at _ _ _)).
    set (m1 := advance _ _). rewrite bgt.
    change (buffer (at_ (e ++ tx) m1)) with (e ++ tx).
    assert (Hv' : hex_value n (e ++ tx) 0 = Some c).
    { revert Hv Hl. clear. generalize 0 at 1 2. revert e. induction n as [|n IH]; intros e a; cbn; [auto|]. destruct e as [|y e]; [discriminate|]. cbn. destruct (is_hex_c y); [|discriminate]. intros H [= Hl]. apply (IH _ _ H Hl). }
    rewrite Hv'. unfold char_from_u32. rewrite Hsc.
    assert (K : forall e m1, length e = n -> exists m2, skip_chars n (at_ (e ++ tx) m1) = (Ok tt, at_ tx m2) /\ m_col m1 <= m_col m2).
    { clear. induction n as [|n IH]; intros e m1 Hl; cbn [skip_chars].
      - destruct e; [|discriminate]. eexists. split; [reflexivity|lia].
      - destruct e as [|y e]; [discriminate|]. injection Hl as Hl. cbn [app]. rewrite (bok _ _ _ _ _ (skip_at _ _ _)). destruct (IH e (advance (len_utf8 y) m1) Hl) as (m2 & E & H).
        exists m2. split; [exact E|]. cbn in H. lia. }
    destruct (K e m1 Hl) as (m2 & E2 & Hc2). rewrite (bok _ _ _ _ _ E2). exists m2. split; [reflexivity|]. subst m1. cbn in Hc2. lia.
Qed.

Definition stops (tail : str) : Prop :=
  is_blankz (hd_error tail) = true \/ hd_error tail = Some (quote_char single) /\ (single = true -> chk 39 (nth_error tail 1) = false).
Lemma text_at sm w : forall x tail m, forallb word w = true -> Forall (awf single lf) w -> stops tail ->
  exists m', flow_scalar_text single sm x (at_ (flat w ++ tail) m) = (Ok (x ++ map aval w, false), at_ tail m') /\ m_col m + N.of_nat (length w) <= m_col m'.
Proof.
  intros x tail m Hw Hf Ht. unfold flow_scalar_text.
  enough (H : forall x m, exists m', lr (fun string : str =>
    s <- get ;;
    if is_blankz (bget 0 s) then ret (inr (string, false))
    else if single && chk cSQ (bget 0 s) && chk cSQ (bget 1 s) then
      skip_char ;; skip_char ;; cache 2 ;; ret (inl (string ++ [cSQ]))
    else if chk (quote_char single) (bget 0 s) then ret (inr (string, false))
    else if negb single && chk cBSL (bget 0 s) && is_break (bget 1 s) then
      cache 3 ;; skip_char ;; skip_line_break ;; ret (inr (string, true))
    else if negb single && chk cBSL (bget 0 s) then
      string <- scan_escape sm string ;; cache 2 ;; ret (inl string)
    else string <- read_char string ;; cache 2 ;; ret (inl string)) x (at_ (flat w ++ tail) m) (x ++ map aval w, false) (at_ tail m') /\ m_col m + N.of_nat (length w) <= m_col m').
  { destruct (H x m) as (m' & L & C). exists m'. split; [apply lr_loop, L|exact C]. }
  clear x m. induction w as [|a w IH]; intros x m.
  - exists m. cbn [flat flat_map app map length]. rewrite app_nil_r. split; [|lia]. apply lr_stop. rewrite bgt.
    unfold bget. change (buffer (at_ tail m)) with tail. destruct Ht as [Ht|[Ht Ht2]].
    + replace (nth_error tail 0) with (hd_error tail) by (destruct tail; reflexivity). rewrite Ht. reflexivity.
    + destruct tail as [|d tail]; [discriminate|]. cbn in Ht. injection Ht as ->. cbn [nth_error] in *.
      destruct single; [rewrite (Ht2 eq_refl)|]; reflexivity.
  - cbn in Hw. apply andb_true_iff in Hw. destruct Hw as [Ha Hw]. inversion Hf as [|? ? Fa Ff]; subst. specialize (IH Hw Ff).
    destruct a as [c|e c| | |]; try discriminate Ha; cbn [awf] in Fa; rewrite flat_cons, <- app_assoc; set (rest := flat w ++ tail) in *; cbn [map aval atext app].
    + destruct Fa as (Hb & Hq & Hs). destruct (IH (x ++ [c]) (advance (len_utf8 c) m)) as (m' & L & C). exists m'. split; [|cbn [length]; cbn in C; lia].
      rewrite <- app_assoc in L. refine (lr_go _ _ _ _ _ _ _ _ _ L); [|shorter]. rewrite bgt.
      unfold bget. change (buffer (at_ (c :: rest) m)) with (c :: rest). cbn [nth_error]. rewrite Hb.
      replace (chk (quote_char single) (Some c)) with false by (cbn; lia).
      replace (single && chk 39 (Some c)) with false by (destruct single; cbn in *; lia). cbn [andb].
      replace (negb single && chk 92 (Some c)) with false by (destruct single, Hs; cbn in *; try discriminate; lia). cbn [andb].
      rewrite (bok _ _ _ _ _ (read_at _ _ _ _)), (bok _ _ _ _ _ (c_at _ _ _)). reflexivity.
    + destruct Fa as [Es He]. destruct (esc_at sm e c rest m x He) as (m1 & E1 & C1). destruct (IH (x ++ [c]) m1) as (m' & L & C). exists m'. split; [|cbn [length]; lia].
      rewrite <- app_assoc in L. refine (lr_go _ _ _ _ _ _ _ _ _ L); [|shorter]. rewrite bgt.
      rewrite Es. unfold bget. change (buffer (at_ (92 :: e ++ rest) m)) with (92 :: e ++ rest). destruct e as [|y e]; [contradiction|]. cbn [nth_error app].
      destruct He as [Hy _]. cbn [is_break]. rewrite Hy. cbn [negb andb chk quote_char]. change (92 =? 92) with true. change (is_blankz (Some 92)) with false. change (92 =? 34) with false. cbn [andb negb].
      change (92 :: y :: e ++ rest) with (92 :: (y :: e) ++ rest). rewrite (bok _ _ _ _ _ E1), (bok _ _ _ _ _ (c_at _ _ _)). reflexivity.
    + destruct (IH (x ++ [39]) (advance (len_utf8 39) (advance (len_utf8 39) m))) as (m' & L & C). exists m'. split; [|cbn [length]; cbn in C; lia].
      rewrite <- app_assoc in L. refine (lr_go _ _ _ _ _ _ _ _ _ L); [|shorter]. rewrite bgt.
      rewrite Fa. unfold bget. change (buffer (at_ (39 :: 39 :: rest) m)) with (39 :: 39 :: rest). cbn [nth_error].
      change (is_blankz (Some 39)) with false. cbn [chk]. change (39 =? 39) with true. cbn [andb].
      rewrite (bok _ _ _ _ _ (skip_at _ _ _)), (bok _ _ _ _ _ (skip_at _ _ _)), (bok _ _ _ _ _ (c_at _ _ _)). reflexivity.
Qed.
Fixpoint gcol (x : N) (l : list atom) : N :=
  match l with [] => x | ABreak _ _ :: r => gcol 0 r | _ :: r => gcol (x + 1) r end.
Lemma gcol_mono l : forall x y, x <= y -> gcol x l <= gcol y l.
Proof. induction l as [|a l IH]; intros x y H; cbn [gcol]; [exact H|]. destruct a; apply IH; lia. Qed.
Definition not_gap (tail : str) : Prop := is_blank (hd_error tail) = false /\ is_break (hd_error tail) = false.
Lemma no_lf_next w tail : Forall (awf single lf) w -> forallb (fun a => negb (word a)) w = true -> not_gap tail ->
  match flat w ++ tail with 10 :: _ => lf <> [13] | _ => True end.
Proof.
  intros Hf Hg [_ Ht]. destruct w as [|a w]; cbn [flat flat_map app].
  - destruct tail as [|d tail]; [exact I|]. cbn in Ht. unfold is_break_c in Ht. destruct (N.eqb_spec d 10) as [-> |Hd]; [discriminate|].
    repeat match goal with |- match ?d with _ => _ end => destruct d; try exact I end; congruence.
  - cbn in Hg. apply andb_true_iff in Hg. inversion Hf as [|? ? Ha _]; subst. destruct a as [| | | |t c]; try (destruct Hg; discriminate); [exact I|]. cbn in Ha.
    destruct Ha as [[-> ->]|[[-> | ->] ->]]; [|exact I|exact I]. destruct Hlf as [-> |[-> | ->]]; cbn; try exact I. discriminate.
Qed.
Lemma gaps_at w : forall g tail m, forallb (fun a => negb (word a)) w = true -> Forall (awf single lf) w -> not_gap tail ->
  exists m', flow_scalar_blanks (g_lb g) (g_tb g) (g_ws g) (g_ld g) (at_ (flat w ++ tail) m) =
    (Ok (let g := fold_left gstep w g in (g_lb g, g_tb g, g_ws g, g_ld g)), at_ tail m') /\ gcol (m_col m) w <= m_col m'.
Proof.
  intros g tail m Hw Hf Ht. unfold flow_scalar_blanks.
  match goal with |- context [loop ?b _ _] => set (body := b) end.
  enough (H : forall g m, exists m', lr body (g_lb g, g_tb g, g_ws g, g_ld g) (at_ (flat w ++ tail) m) (let g := fold_left gstep w g in (g_lb g, g_tb g, g_ws g, g_ld g)) (at_ tail m') /\ gcol (m_col m) w <= m_col m').
  { destruct (H g m) as (m' & L & C). exists m'. split; [apply lr_loop, L|exact C]. }
  clear g m. induction w as [|a w IH]; intros g m.
  - exists m. cbn [flat flat_map app fold_left gcol]. split; [|lia]. apply lr_stop. subst body. cbv beta iota. rewrite bgt.
    unfold bget. change (buffer (at_ tail m)) with tail. replace (nth_error tail 0) with (hd_error tail) by (destruct tail; reflexivity). destruct Ht as [-> ->]. reflexivity.
  - pose proof (no_lf_next w tail) as Hlf'.
    cbn in Hw. apply andb_true_iff in Hw. destruct Hw as [Ha Hw]. inversion Hf as [|? ? Fa Ff]; subst. specialize (IH Hw Ff). specialize (Hlf' Ff Hw Ht).
    destruct a as [| | | |t c]; try discriminate Ha; cbn [awf] in Fa; rewrite flat_cons, <- app_assoc; set (rest := flat w ++ tail) in *; cbn [atext app fold_left gcol].
    + destruct (IH (gstep g ASpace) (advance (len_utf8 32) m)) as (m' & L & C). exists m'. split; [|exact C].
      refine (lr_go _ _ _ _ _ _ _ _ _ L); [|shorter]. subst body. cbv beta iota. rewrite bgt.
      unfold bget. change (buffer (at_ (32 :: rest) m)) with (32 :: rest). cbn [nth_error]. change (is_blank (Some 32)) with true. cbv iota.
      destruct g as [lb tb ws ld]. cbn [g_ld g_lb g_tb g_ws gstep]. destruct ld.
      * rewrite (bok _ _ _ _ _ (skip_at _ _ _)), (bok _ _ _ _ _ (c_at _ _ _)). reflexivity.
      * rewrite (bok _ _ _ _ _ (read_at _ _ _ _)), (bok _ _ _ _ _ (c_at _ _ _)). reflexivity.
    + assert (Ht0 : exists d t', t = d :: t' /\ is_blank (Some d) = false /\ is_break_c d = true).
      { destruct Fa as [[-> ->]|[[-> | ->] ->]]; [|eexists _, _; repeat split|eexists _, _; repeat split]. destruct Hlf as [-> |[-> | ->]]; eexists _, _; repeat split. }
      destruct Ht0 as (d & t' & Et & Hb1 & Hb2).
      assert (B : forall k, bget 0 (at_ (t ++ rest) k) = Some d) by (intros k; rewrite Et; reflexivity).
      assert (Hm : forall k k', (meas (at_ rest k) < meas (at_ (t ++ rest) k'))%nat) by (intros; rewrite Et; shorter).
      destruct (g_ld g) eqn:Eld.
      * destruct (rlb_at t c rest m (g_tb g) Fa Hlf') as [n E]. destruct (IH (gstep g (ABreak t c)) (next_line n m)) as (m' & L & C). exists m'. split; [|exact C].
        refine (lr_go _ _ _ _ _ _ _ _ _ L); [|apply Hm]. subst body. cbv beta iota. rewrite bgt, B, Hb1. cbn [is_break]. rewrite Hb2.
        rewrite (bok _ _ _ _ _ (c_at _ _ _)), (bok _ _ _ _ _ E), (bok _ _ _ _ _ (c_at _ _ _)). cbn [gstep]. rewrite Eld. reflexivity.
      * destruct (rlb_at t c rest m (g_lb g) Fa Hlf') as [n E]. destruct (IH (gstep g (ABreak t c)) (next_line n m)) as (m' & L & C). exists m'. split; [|exact C].
        refine (lr_go _ _ _ _ _ _ _ _ _ L); [|apply Hm]. subst body. cbv beta iota. rewrite bgt, B, Hb1. cbn [is_break]. rewrite Hb2.
        rewrite (bok _ _ _ _ _ (c_at _ _ _)), (bok _ _ _ _ _ E), (bok _ _ _ _ _ (c_at _ _ _)). cbn [gstep]. rewrite Eld. reflexivity.
Qed.
Lemma cols_word_app w r : forallb word w = true -> forall k x, cols k x (w ++ r) -> cols k (x + N.of_nat (length w)) r.
Proof.
  induction w as [|a w IH]; intros H k x; cbn [app cols length]; [rewrite N.add_0_r; auto|]. cbn in H. apply andb_true_iff in H. destruct H as [H1 H2].
  assert (K : cols k (x + 1) (w ++ r) -> cols k (x + N.of_nat (S (length w))) r) by (intros C; apply (IH H2) in C; replace (x + N.of_nat (S (length w))) with (x + 1 + N.of_nat (length w)) by lia; exact C).
  destruct a; try discriminate H1; intros [_ C]; exact (K C).
Qed.
Lemma cols_gap_app w r : forallb (fun a => negb (word a)) w = true -> forall k x, cols k x (w ++ r) -> cols k (gcol x w) r.
Proof.
  induction w as [|a w IH]; intros H k x; cbn [app cols gcol]; [auto|]. cbn in H. apply andb_true_iff in H. destruct H as [H1 H2].
  destruct a; try discriminate H1; intros C; exact (IH H2 _ _ C).
Qed.
Lemma cols_hd k x r : cols k x r -> match r with a :: _ => word a = true | [] => True end -> k <= x.
Proof. destruct r as [|a r]; [auto|]. cbn [cols]. destruct a; try discriminate; tauto. Qed.
Lemma word_tail r rest : Forall (awf single lf) r -> match r with a :: _ => word a = true | [] => True end -> not_gap (flat r ++ quote_char single :: rest).
Proof.
  intros Hf Hr. unfold not_gap. destruct r as [|a r]; cbn [flat flat_map app].
  - destruct single; split; reflexivity.
  - inversion Hf as [|? ? Ha _]; subst. destruct a as [c|e c| | |]; try discriminate Hr; cbn [atext app hd_error]; cbn [awf] in Ha; try (split; reflexivity).
    destruct Ha as [Hb _]. unfold is_blankz, is_breakz in Hb. apply orb_false_iff in Hb. destruct Hb as [H1 H2]. apply orb_false_iff in H2. destruct H2 as [_ H2]. auto.
Qed.
Lemma gap_stops g r rest : g <> [] -> Forall (awf single lf) g -> forallb (fun a => negb (word a)) g = true -> stops (flat g ++ flat r ++ quote_char single :: rest).
Proof.
  intros Hg Hf Hw. left. destruct g as [|a g]; [congruence|]. inversion Hf as [|? ? Ha _]; subst. cbn in Hw. destruct a as [| | | |t c]; try discriminate Hw; [reflexivity|].
  cbn [awf] in Ha. cbn [flat flat_map atext]. destruct Ha as [[-> ->]|[[-> | ->] ->]]; [|reflexivity|reflexivity]. destruct Hlf as [-> |[-> | ->]]; reflexivity.
Qed.
Variable rest : str.
Hypothesis Hrest : single = true -> chk 39 (hd_error rest) = false.
Lemma quote_stops : stops (quote_char single :: rest).
Proof. right. split; [reflexivity|]. intros H. cbn [nth_error]. rewrite <- (Hrest H). destruct rest; reflexivity. Qed.
Definition flow_body (start_mark : mark) := (fun '(string, leading_break, trailing_breaks, whitespaces) =>
    cache 4 ;;
    s <- get ;;
    if at_document_indicator s then
      scan_error "while scanning a quoted scalar" start_mark "found unexpected document indicator"
    else if is_z (bget 0 s) then
      scan_error "while scanning a quoted scalar" start_mark "found unexpected end of stream"
    else
      cache 2 ;;
      '(string, leading_blanks) <- flow_scalar_text single start_mark string ;;
      cache 1 ;;
      s <- get ;;
      if chk (quote_char single) (bget 0 s) then ret (inr string)
      else
        cache 1 ;;
        '(leading_break, trailing_breaks, whitespaces, leading_blanks) <-
          flow_scalar_blanks leading_break trailing_breaks whitespaces leading_blanks ;;
        if leading_blanks : bool then
          ret (inl (fold_breaks string leading_break trailing_breaks, @nil char, @nil char, whitespaces))
        else
          ret (inl (string ++ whitespaces, leading_break, trailing_breaks, @nil char))).
Lemma flow_loop_at sm : forall n l x m, (length l < n)%nat -> Forall (awf single lf) l -> cols 1 (m_col m) l -> 1 <= m_col m ->
  exists m', lr (flow_body sm) (x, [], [], []) (at_ (flat l ++ quote_char single :: rest) m) (x ++ den g0 l) (at_ (quote_char single :: rest) m') .
Proof.
  induction n as [|n IH]; intros l x m Hn Hf Hc Hm; [lia|].
  set (Q := quote_char single :: rest) in *.
  pose proof (span_app word l) as El. pose proof (span_all word l) as Hw. pose proof (span_hd word l) as Hh. destruct (span word l) as [w l1]. cbn [fst snd] in *. subst l.
  apply Forall_app in Hf. destruct Hf as [Fw F1]. apply (cols_word_app _ _ Hw) in Hc.
  assert (Hst : stops (flat l1 ++ Q)).
  { destruct l1 as [|a l1]; [apply quote_stops|]. inversion F1 as [|? ? Ha _]; subst. rewrite (flat_cons a), <- app_assoc. rewrite <- (app_nil_r (atext a)). change (atext a ++ []) with (flat [a]).
    apply (gap_stops [a] l1 rest); [discriminate|auto|cbn; rewrite Hh; reflexivity]. }
  rewrite flat_app, <- app_assoc. destruct (text_at sm w x (flat l1 ++ Q) m Hw Fw Hst) as (m1 & E1 & C1).
  assert (B : forall a b c, flow_body sm (x, a, b, c) (at_ (flat w ++ flat l1 ++ Q) m) =
    (if chk (quote_char single) (bget 0 (at_ (flat l1 ++ Q) m1)) then ret (inr (x ++ map aval w))
      else
        cache 1 ;;
        '(leading_break, trailing_breaks, whitespaces, leading_blanks) <- flow_scalar_blanks a b c false ;;
        if leading_blanks : bool then ret (inl (fold_breaks (x ++ map aval w) leading_break trailing_breaks, @nil char, @nil char, whitespaces))
        else ret (inl ((x ++ map aval w) ++ whitespaces, leading_break, trailing_breaks, @nil char))) (at_ (flat l1 ++ Q) m1)).
  { intros a b c. unfold flow_body. rewrite (bok _ _ _ _ _ (c_at _ _ _)), bgt.
    replace (at_document_indicator _) with false by (unfold at_document_indicator; change (m_col (pos (at_ (flat w ++ flat l1 ++ Q) m))) with (m_col m); replace (m_col m =? 0) with false by lia; reflexivity).
    replace (is_z (bget 0 (at_ (flat w ++ flat l1 ++ Q) m))) with false.
    2: { unfold bget. change (buffer (at_ (flat w ++ flat l1 ++ Q) m)) with (flat w ++ flat l1 ++ Q). destruct (flat w ++ flat l1 ++ Q) eqn:Z; [|reflexivity]. exfalso. apply (f_equal (@length char)) in Z. rewrite !app_length in Z. subst Q. cbn in Z. lia. }
    rewrite (bok _ _ _ _ _ (c_at _ _ _)), (bok _ _ _ _ _ E1). cbv beta iota. rewrite (bok _ _ _ _ _ (c_at _ _ _)), bgt. reflexivity. }
  destruct l1 as [|a0 l1'].
  - exists m1. apply lr_stop. rewrite B, app_nil_r. cbn [flat flat_map app]. subst Q.
    change (bget 0 (at_ (quote_char single :: rest) m1)) with (Some (quote_char single)). cbn [chk]. rewrite N.eqb_refl.
    rewrite <- (app_nil_r w) at 2. rewrite (den_words w []) by exact Hw. cbn [den flush_gap g0 g_ld g_ws]. rewrite app_nil_r. reflexivity.
  - set (l1 := a0 :: l1') in *. pose proof (span_app (fun a => negb (word a)) l1) as El. pose proof (span_all (fun a => negb (word a)) l1) as Hg. pose proof (span_hd (fun a => negb (word a)) l1) as Hh2.
    assert (Hne : fst (span (fun a => negb (word a)) l1) <> []).
    { subst l1. cbn [span]. rewrite Hh. cbn [negb]. destruct (span _ l1'). discriminate. }
    destruct (span _ l1) as [g r]. cbn [fst snd] in *. rewrite El in *. clear El a0 l1' l1 Hh. rename g into gg.
    assert (Hr : match r with a :: _ => word a = true | [] => True end) by (destruct r as [|a r]; [exact I|]; destruct (word a); [reflexivity|discriminate Hh2]).
    apply Forall_app in F1. destruct F1 as [Fg Fr]. rewrite flat_app, <- app_assoc in *.
    destruct (gaps_at gg g0 (flat r ++ Q) m1 Hg Fg (word_tail _ _ Fr Hr)) as (m2 & E2 & C2).
    pose proof (gok_fold gg g0 (conj eq_refl eq_refl)) as Gk. set (G := fold_left gstep gg g0) in *. cbv zeta in E2.
    apply (cols_gap_app _ _ Hg) in Hc. assert (Hc2 : cols 1 (m_col m2) r) by (eapply cols_mono; [|exact Hc]; etransitivity; [apply gcol_mono; exact C1|exact C2]).
    pose proof (cols_hd _ _ _ Hc2 Hr) as Hm2.
    destruct (IH r (x ++ map aval w ++ flush_gap G) m2) as (m3 & L); [rewrite !app_length in Hn; destruct gg; [congruence|]; cbn [length] in Hn; lia|exact Fr|exact Hc2|exact Hm2|].
    exists m3. rewrite den_words by exact Hw. rewrite (den_gap gg r Hg Hr). fold G. rewrite <- !app_assoc in L.
    refine (lr_go _ _ _ _ _ _ _ _ _ L).
    + rewrite B. replace (chk (quote_char single) _) with false.
      2: { destruct gg as [|a gg]; [congruence|]. inversion Fg as [|? ? Ha _]; subst. cbn in Hg. destruct a as [| | | |t c]; try discriminate Hg; [destruct single; reflexivity|].
           cbn [awf] in Ha. destruct Ha as [[-> ->]|[[-> | ->] ->]]; [|destruct single; reflexivity|destruct single; reflexivity]. destruct Hlf as [-> |[-> | ->]]; destruct single; reflexivity. }
      rewrite (bok _ _ _ _ _ (c_at _ _ _)), (bok _ _ _ _ _ E2). unfold gok in Gk. unfold flush_gap. destruct (g_ld G).
      * rewrite Gk, fold_breaks_app, <- app_assoc. reflexivity.
      * destruct Gk as [-> ->]. rewrite <- app_assoc. reflexivity.
    + apply meas_lt. rewrite !app_length. destruct gg as [|a gg]; [congruence|]. rewrite flat_cons, app_length. inversion Fg as [|? ? Ha _]; subst.
      assert (0 < length (atext a))%nat; [|unfold str, char in *; lia].
      destruct a as [| | | |t c]; cbn [atext length]; try lia. cbn [awf] in Ha. destruct Ha as [[-> ->]|[[-> | ->] ->]]; cbn [length]; try lia. destruct Hlf as [-> |[-> | ->]]; cbn [length]; lia.
Qed.
(** A quoted scalar. *)
Theorem flow_at l m : Forall (awf single lf) l -> cols 1 (m_col m + 1) l ->
  exists m', scan_flow_scalar single (at_ (quote_char single :: flat l ++ quote_char single :: rest) m) =
    (Ok (Mk_token (TScalar (den g0 l) (if single then SSingle else SDouble)) m m'), at_ rest m').
Proof.
  intros Hf Hc. unfold scan_flow_scalar. rewrite (bok (gets pos) _ (at_ (quote_char single :: flat l ++ quote_char single :: rest) m) m _ eq_refl), (bok _ _ _ _ _ (skip_at _ _ _)).
  destruct (flow_loop_at m (S (length l)) l [] (advance (len_utf8 (quote_char single)) m)) as (m1 & L); [lia|exact Hf|exact Hc|cbn; lia|].
  change (fun '(string, leading_break, trailing_breaks, whitespaces) => _) with (flow_body m).
  rewrite (bok _ _ _ _ _ (lr_loop _ _ _ _ _ L)), (bok _ _ _ _ _ (skip_at _ _ _)).
  eexists. reflexivity.
Qed.
End scan.
