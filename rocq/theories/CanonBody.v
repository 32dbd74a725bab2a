(** CanonBody.v -- reading the anchors, tags, scalars and directives of canonical output. *)
From Coq Require Import Lia ZifyBool ZifyNat ZifyN Bool.
From Verif Require Import Base Utf Chars State Reader Scanner Wp ScanFacts RoundScan EState Emitter EmitScalar EmitQuoted EmitGrammar Spec_EmitNames CanonLex.
Open Scope N_scope.

Lemma bpos {A} (k : mark -> M sst A) s tx m : bind (gets pos) k (at_ s tx m) = k m (at_ s tx m). Proof. reflexivity. Qed.
Definition blank_behind (rest : str) : Prop := is_blankz (nth_error rest 0) = true.
Definition name_behind (rest : str) : Prop := blank_behind rest \/ In (nth_error rest 0) [Some 44; Some 93; Some 125].
Lemma blankz_not_alpha o : is_blankz o = true -> is_alpha o = false.
Proof.
  destruct o as [c|]; [|reflexivity]. unfold is_blankz, is_breakz, is_blank, is_space, is_tab, is_alpha, is_alpha_c, is_break_c, in_range. cbn [chk is_z is_break].
  unfold is_break_c. lia.
Qed.
(** ** Anchors and aliases *)
Lemma anchor_at alias (a : str) rest s m : ideal s -> a <> [] -> forallb is_alpha_c a = true -> name_behind rest ->
  scanned (scan_anchor alias) ((if alias then 42 else 38) :: a) rest (if alias then TAlias a else TAnchor a) s m.
Proof.
  intros Hid Hn Ha Hr. unfold scanned, scan_anchor. rewrite bpos.
  change (((if alias then 42 else 38) :: a) ++ rest) with ((if alias then 42 else 38) :: a ++ rest). rewrite (bok _ _ _ _ _ (skip_at _ _ _ _)), (bok _ _ _ _ _ (c_at s Hid _ _ _)).
  destruct (read_word s Hid (fun s => is_alpha (bget 0 s)) rest a [] (advance (len_utf8 (if alias then 42 else 38)) m)) as (m1 & E1 & L1).
  { intros c r m' Hc. rewrite bget_at. cbn [nth_error is_alpha]. rewrite forallb_forall in Ha. apply Ha, Hc. }
  { intros m'. rewrite bget_at. destruct Hr as [Hr|[Hr|[Hr|[Hr|[]]]]]; [apply blankz_not_alpha, Hr|rewrite <- Hr; reflexivity..]. }
  rewrite (bok _ _ _ _ _ E1), bpos, bgt, bget_at. cbn [app].
  replace (is_empty a) with false by (destruct a; [congruence|reflexivity]). replace (anchor_end_ok (nth_error rest 0)) with true.
  2: { unfold anchor_end_ok. destruct Hr as [Hr|[Hr|[Hr|[Hr|[]]]]]; [unfold blank_behind in Hr; rewrite Hr; reflexivity|rewrite <- Hr; reflexivity..]. }
  cbn [orb negb]. eexists _, _, _. split; [destruct alias; reflexivity|]. rewrite L1. cbn. lia.
Qed.

(** ** Tags *)
Definition uri1 (c : char) : str := if tag_uri_char c then [c] else [37; hex_upper (c / 16); hex_upper (c mod 16)].
Definition uri (x : str) : str := flat_map uri1 x.
Definition ascii (x : str) : Prop := Forall (fun c => c < 128) x.
(** Characters the scanner does not take for a part of a shorthand tag. *)
Definition shorthand (x : str) : Prop := Forall (fun c : char => c <> 44 /\ c <> 91 /\ c <> 93) x.
Lemma uri_nil x : uri x = [] -> x = [].
Proof. destruct x as [|c x]; [reflexivity|]. unfold uri. cbn [flat_map]. unfold uri1 at 1. destruct (tag_uri_char c); discriminate. Qed.
Lemma uri_char_of uc c : tag_uri_char c = true -> uc = true \/ c <> 44 /\ c <> 91 /\ c <> 93 -> uri_char_ok uc (Some c) = true /\ c <> 37.
Proof.
  unfold tag_uri_char, uri_char_ok. cbn [existsb is_alpha chk]. intros H Hu. split.
  - destruct (is_alpha_c c) eqn:Ea; [reflexivity|]. cbn [orb] in H |- *. destruct uc; cbn [andb]; [|rewrite orb_false_r]; unfold is_alpha_c in Ea; try lia.
  - intros ->. discriminate H.
Qed.
Lemma octet_width_ascii c : c < 128 -> octet_width c = 1.
Proof.
  intros H. unfold octet_width. replace (N.land c 128) with 0; [reflexivity|]. symmetry. change 128 with (2 ^ 7). rewrite N.land_comm.
  apply N.bits_inj_0. intros n. rewrite N.land_spec, N.pow2_bits_eqb. destruct (N.eqb_spec 7 n) as [<- |]; [|reflexivity]. cbn [andb].
  apply N.bits_above_log2. destruct (N.eq_dec c 0) as [-> |Hc]; [reflexivity|]. apply N.log2_lt_pow2; lia.
Qed.
Lemma escape_at s dir sm x c t m : ideal s -> c < 128 ->
  exists m', scan_uri_escapes dir sm x (at_ s ([37; hex_upper (c / 16); hex_upper (c mod 16)] ++ t) m) = (Ok (x ++ [c]), at_ s t m') /\ m_line m' = m_line m.
Proof.
  intros Hid Hc. set (h := hex_upper (c / 16)). set (l := hex_upper (c mod 16)).
  assert (H16 : c / 16 < 16) by (apply N.div_lt_upper_bound; lia). assert (L16 : c mod 16 < 16) by (apply N.mod_lt; lia).
  destruct (hex_upper_ok _ H16) as [Hh Hhv]. destruct (hex_upper_ok _ L16) as [Hl Hlv]. fold h in Hh, Hhv. fold l in Hl, Hlv.
  exists (advance (len_utf8 l) (advance (len_utf8 h) (advance (len_utf8 37) m))). split; [|reflexivity].
  unfold scan_uri_escapes. apply lr_loop, lr_stop. rewrite (bok _ _ _ _ _ (c_at s Hid _ _ _)), bgt, !bget_at. cbn [app nth_error].
  cbn [is_hex as_hex chk]. rewrite Hh, Hl. change (37 =? 37) with true. cbn [andb negb]. rewrite Hhv, Hlv.
  replace (c / 16 * 16 + c mod 16) with c by (rewrite (N.div_mod c 16) at 1; lia). cbv zeta. rewrite octet_width_ascii by exact Hc. reflexivity.
Qed.
Definition uri_body (uc dir : bool) (sm : mark) : str * N -> M sst ((str * N) + (str * N)) := (fun '(string, length) =>
    s <- get ;;
    if uri_char_ok uc (bget 0 s) then
      string <- (if chk cPCT (bget 0 s) then scan_uri_escapes dir sm string
                 else read_char string) ;;
      cache 1 ;;
      ret (inl (string, length + 1))
    else ret (inr (string, length))).
Lemma uri_loop s uc dir sm t : ideal s -> uri_char_ok uc (nth_error t 0) = false -> forall x acc n m, ascii x -> uc = true \/ shorthand x ->
  exists m', lr (uri_body uc dir sm) (acc, n) (at_ s (uri x ++ t) m) (acc ++ x, n + N.of_nat (length x)) (at_ s t m') /\ m_line m' = m_line m.
Proof.
  intros Hid Ht. induction x as [|c x IH]; intros acc n m Ha Hu.
  - exists m. split; [|reflexivity]. apply lr_stop. unfold uri_body. cbn [uri flat_map app length]. rewrite bgt, bget_at, Ht, app_nil_r, N.add_0_r. reflexivity.
  - inversion Ha as [|? ? Hc Hx]; subst. assert (Hu2 : uc = true \/ shorthand x) by (destruct Hu as [->|Hu]; [auto|right; inversion Hu; assumption]).
    cbn [uri flat_map]. fold (uri x). rewrite <- app_assoc. unfold uri1. destruct (tag_uri_char c) eqn:Et.
    + destruct (uri_char_of uc c Et) as [H1 H2]; [destruct Hu as [->|Hu]; [auto|right; inversion Hu; assumption]|].
      destruct (IH (acc ++ [c]) (n + 1) (advance (len_utf8 c) m) Hx Hu2) as (m' & L & C). exists m'. split; [|exact C]. rewrite <- app_assoc in L. cbn [app] in L |- *.
      replace (n + N.of_nat (length (c :: x))) with (n + 1 + N.of_nat (length x)) by (cbn [length]; lia).
      refine (lr_go _ _ _ _ _ _ _ _ _ L); [|shorter]. unfold uri_body. rewrite bgt, bget_at. cbn [nth_error]. rewrite H1. cbn [chk]. replace (c =? 37) with false by lia.
      rewrite (bok _ _ _ _ _ (read_at _ _ _ _ _)), (bok _ _ _ _ _ (c_at s Hid _ _ _)). reflexivity.
    + destruct (escape_at s dir sm acc c (uri x ++ t) m Hid Hc) as (m1 & E1 & L1).
      destruct (IH (acc ++ [c]) (n + 1) m1 Hx Hu2) as (m' & L & C). exists m'. split; [|congruence]. rewrite <- app_assoc in L. cbn [app] in L |- *.
      replace (n + N.of_nat (length (c :: x))) with (n + 1 + N.of_nat (length x)) by (cbn [length]; lia).
      refine (lr_go _ _ _ _ _ _ _ _ _ L); [|shorter]. unfold uri_body. rewrite bgt, bget_at. cbn [nth_error].
      match goal with |- context [uri_char_ok uc ?q] => replace (uri_char_ok uc q) with true by (destruct uc; reflexivity) end. cbn [chk]. change (37 =? 37) with true. cbv iota.
      cbn [app] in E1. rewrite (bok _ _ _ _ _ E1), (bok _ _ _ _ _ (c_at s Hid _ _ _)). reflexivity.
Qed.
(** [hd]: the handle that turned out to be the beginning of the URI. *)
Lemma uri_at s uc dir sm hd x t m : ideal s -> uri_char_ok uc (nth_error t 0) = false -> ascii x -> uc = true \/ shorthand x -> (hd = None -> x <> []) -> (forall h, hd = Some h -> h <> []) ->
  exists m', scan_tag_uri uc dir hd sm (at_ s (uri x ++ t) m) = (Ok (match hd with Some (_ :: w) => w | _ => [] end ++ x), at_ s t m') /\ m_line m' = m_line m.
Proof.
  intros Hid Ht Ha Hu Hn Hh. unfold scan_tag_uri. rewrite (bok _ _ _ _ _ (c_at s Hid _ _ _)).
  set (h := match hd with Some h => h | None => [] end). set (acc := if 1 <? str_len h then tl h else []).
  assert (Eacc : acc = match hd with Some (_ :: w) => w | _ => [] end).
  { subst acc h. destruct hd as [[|c [|d w]]|]; try reflexivity.
    - cbn [tl]. match goal with |- (if ?q then _ else _) = _ => destruct q; reflexivity end.
    - rewrite !str_len_cons. pose proof (len_utf8_pos c). pose proof (len_utf8_pos d). replace (1 <? len_utf8 c + (len_utf8 d + str_len w)) with true by lia. reflexivity. }
  destruct (uri_loop s uc dir sm t Hid Ht x acc (str_len h) m Ha Hu) as (m' & L & C). exists m'. split; [|exact C].
  match goal with |- context [loop ?b] => change b with (uri_body uc dir sm) end. rewrite (bok _ _ _ _ _ (lr_loop _ _ _ _ _ L)).
  replace (str_len h + N.of_nat (length x) =? 0) with false; [rewrite <- Eacc; reflexivity|].
  symmetry. subst h. destruct hd as [h|].
  - specialize (Hh h eq_refl). destruct h as [|c h]; [congruence|]. rewrite str_len_cons. pose proof (len_utf8_pos c). lia.
  - specialize (Hn eq_refl). destruct x; [congruence|]. cbn [length]. lia.
Qed.

Inductive tag_form := FVerbatim (x : str) | FBang | FShort (h x : str).
Definition form_text (f : tag_form) : str := match f with FVerbatim x => [33; 60] ++ uri x ++ [62] | FBang => [33] | FShort h x => h ++ uri x end.
Definition form_token (f : tag_form) : token_data := match f with FVerbatim x => TTag [] x | FBang => TTag [] (lit "!") | FShort h x => TTag h x end.
Definition form_ok (f : tag_form) : Prop :=
  match f with
  | FVerbatim x => x <> [] /\ ascii x
  | FBang => True
  | FShort h x => valid_handle h /\ x <> [] /\ ascii x /\ shorthand x
  end.
Lemma blankz_not_uri uc o : is_blankz o = true -> uri_char_ok uc o = false.
Proof.
  intros H. pose proof (blankz_not_alpha _ H) as Ha. destruct o as [c|]; [|destruct uc; reflexivity]. unfold uri_char_ok. rewrite Ha. cbn [orb chk].
  unfold is_blankz, is_breakz, is_blank, is_space, is_tab in H. cbn [chk is_z is_break] in H. unfold is_break_c in H. destruct uc; lia.
Qed.
Lemma alpha_uri c : is_alpha_c c = true -> uri1 c = [c].
Proof. intros H. unfold uri1, tag_uri_char. rewrite H. reflexivity. Qed.
Lemma uri_alpha w : forallb is_alpha_c w = true -> uri w = w.
Proof. induction w as [|c w IH]; [reflexivity|]. cbn [forallb uri flat_map]. fold (uri w). intros H. apply andb_true_iff in H. destruct H as [H1 H2]. rewrite alpha_uri by exact H1. rewrite IH by exact H2. reflexivity. Qed.
Lemma uri_app a b : uri (a ++ b) = uri a ++ uri b. Proof. apply flat_map_app. Qed.
Lemma uri_head (x t : str) : (match x with c :: _ => is_alpha_c c = false | [] => True end) -> is_alpha (nth_error t 0) = false /\ chk 33 (nth_error t 0) = false ->
  is_alpha (nth_error (uri x ++ t) 0) = false /\ chk 33 (nth_error (uri x ++ t) 0) = false.
Proof.
  intros Hx Ht. destruct x as [|c x]; [exact Ht|]. cbn [uri flat_map]. rewrite <- app_assoc. unfold uri1 at 1 3. destruct (tag_uri_char c) eqn:E; [|split; reflexivity].
  cbn [app nth_error is_alpha chk]. split; [exact Hx|]. destruct (N.eqb_spec c 33) as [-> |]; [discriminate E|reflexivity].
Qed.
(** Handles.  [w] is read, then [t] stops. *)
Lemma handle_word s dir sm (w t : str) m : ideal s -> forallb is_alpha_c w = true -> is_alpha (nth_error t 0) = false -> chk 33 (nth_error t 0) = false -> (dir = true -> w = []) ->
  exists m', scan_tag_handle dir sm (at_ s (33 :: w ++ t) m) = (Ok (33 :: w), at_ s t m') /\ m_line m' = m_line m.
Proof.
  intros Hid Hw Ht Ht2 Hd. unfold scan_tag_handle. rewrite (bok _ _ _ _ _ (c_at s Hid _ _ _)), bgt, bget_at. cbn [nth_error chk]. change (33 =? 33) with true. cbn [negb].
  rewrite (bok _ _ _ _ _ (read_at _ _ _ _ _)), (bok _ _ _ _ _ (c_at s Hid _ _ _)).
  destruct (read_word s Hid (fun s => is_alpha (bget 0 s)) t w [33] (advance (len_utf8 33) m)) as (m1 & E1 & L1).
  { intros c r m' Hc. rewrite bget_at. cbn [nth_error is_alpha]. rewrite forallb_forall in Hw. apply Hw, Hc. }
  { intros m'. rewrite bget_at. exact Ht. }
  cbn [app] in E1 |- *. rewrite (bok _ _ _ _ _ E1), bgt, bget_at, Ht2. exists m1. split; [|exact L1]. destruct dir; [rewrite (Hd eq_refl)|]; reflexivity.
Qed.
Lemma handle_full s dir sm (w t : str) m : ideal s -> forallb is_alpha_c w = true ->
  exists m', scan_tag_handle dir sm (at_ s (33 :: w ++ 33 :: t) m) = (Ok (33 :: w ++ [33]), at_ s t m') /\ m_line m' = m_line m.
Proof.
  intros Hid Hw. unfold scan_tag_handle. rewrite (bok _ _ _ _ _ (c_at s Hid _ _ _)), bgt, bget_at. cbn [nth_error chk]. change (33 =? 33) with true. cbn [negb].
  rewrite (bok _ _ _ _ _ (read_at _ _ _ _ _)), (bok _ _ _ _ _ (c_at s Hid _ _ _)).
  destruct (read_word s Hid (fun s => is_alpha (bget 0 s)) (33 :: t) w [33] (advance (len_utf8 33) m)) as (m1 & E1 & L1).
  { intros c r m' Hc. rewrite bget_at. cbn [nth_error is_alpha]. rewrite forallb_forall in Hw. apply Hw, Hc. }
  { intros m'. reflexivity. }
  cbn [app] in E1 |- *. rewrite (bok _ _ _ _ _ E1), bgt, bget_at. cbn [nth_error chk]. change (33 =? 33) with true. cbv iota.
  eexists. split; [apply read_at|]. exact L1.
Qed.
Lemma last_alpha (w : str) : forallb is_alpha_c w = true -> ends_with 33 (33 :: w) && negb (is_empty w) = false.
Proof.
  destruct w as [|c w] using rev_ind; [reflexivity|]. rewrite forallb_app. cbn [forallb]. intros H. unfold ends_with. rewrite app_comm_cons, last_app1.
  apply andb_true_iff in H. destruct H as [_ H]. rewrite andb_true_r in H. destruct (N.eqb_spec c 33) as [-> |]; [discriminate H|reflexivity].
Qed.
Lemma tag_at f rest s m : ideal s -> form_ok f -> blank_behind rest -> scanned scan_tag (form_text f) rest (form_token f) s m.
Proof.
  intros Hid Hf Hr. unfold scanned, scan_tag. rewrite bpos, (bok _ _ _ _ _ (c_at s Hid _ _ _)), bgt, bget_at.
  assert (Hend : forall m1, (cache 1 ;; s <- get ;;
     (if negb (is_blankz (bget 0 s)) then if (flow_level s =? 0) || negb (chk cCOMMA (bget 0 s)) then scan_error "while scanning a tag" m "did not find expected whitespace or line break" else panics PTagTodo else ret tt) ;;
     end_mark <- gets pos ;; ret (Mk_token (form_token f) m end_mark)) (at_ s rest m1) = (Ok (Mk_token (form_token f) m m1), at_ s rest m1)).
  { intros m1. rewrite (bok _ _ _ _ _ (c_at s Hid _ _ _)), bgt, bget_at. unfold blank_behind in Hr. rewrite Hr. cbn [negb]. reflexivity. }
  assert (Ha : is_alpha (nth_error rest 0) = false /\ chk 33 (nth_error rest 0) = false).
  { split; [apply blankz_not_alpha, Hr|]. unfold blank_behind in Hr. destruct (nth_error rest 0) as [c|]; [|reflexivity]. cbn [chk]. destruct (N.eqb_spec c 33) as [-> |]; [discriminate Hr|reflexivity]. }
  destruct f as [x| |h x]; cbn [form_ok form_text form_token] in *.
  - destruct Hf as [Hx1 Hx2]. cbn [app nth_error chk]. change (60 =? 60) with true. cbv iota. rewrite <- app_assoc. cbn [app].
    destruct (uri_at s true false m None x (62 :: rest) (advance (len_utf8 60) (advance (len_utf8 33) m)) Hid eq_refl Hx2 (or_introl eq_refl) (fun _ => Hx1)) as (m1 & E1 & L1); [discriminate|].
    match goal with |- context [bind ?M ?K (at_ s _ m)] => assert (E2 : M (at_ s (33 :: 60 :: uri x ++ 62 :: rest) m) = (Ok ([], x), at_ s rest (advance (len_utf8 62) m1))) end.
    { rewrite (bok _ _ _ _ _ (skip_at _ _ _ _)), (bok _ _ _ _ _ (skip_at _ _ _ _)), (bok _ _ _ _ _ E1), bgt, bget_at. cbn [nth_error chk]. change (62 =? 62) with true. cbn [negb].
      rewrite (bok _ _ _ _ _ (skip_at _ _ _ _)). reflexivity. }
    rewrite (bok _ _ _ _ _ E2). cbv beta iota. rewrite Hend. eexists _, _, _. split; [reflexivity|]. cbn. rewrite L1. cbn. lia.
  - cbn [app]. match goal with |- context [chk 60 ?q] => replace (chk 60 q) with false end.
    2: { cbn [nth_error]. unfold blank_behind in Hr. destruct rest as [|c rest]; [reflexivity|]. cbn in Hr |- *. destruct (N.eqb_spec c 60) as [-> |]; [discriminate Hr|reflexivity]. }
    destruct (handle_word s false m [] rest m Hid eq_refl (proj1 Ha) (proj2 Ha)) as (m1 & E1 & L1); [discriminate|].
    destruct (uri_at s false false m (Some [33]) [] rest m1 Hid (blankz_not_uri _ _ Hr)) as (m2 & E2 & L2); [constructor|right; constructor|discriminate|intros h [= <-]; discriminate|].
    match goal with |- context [bind ?M ?K (at_ s _ m)] => assert (E3 : M (at_ s (33 :: rest) m) = (Ok ([], lit "!"), at_ s rest m2)) end.
    { cbn [app] in E1. rewrite (bok _ _ _ _ _ E1). change (starts_with 33 [33] && (1 <? str_len [33]) && ends_with 33 [33]) with false. cbv iota. cbn [uri flat_map app] in E2. rewrite (bok _ _ _ _ _ E2). reflexivity. }
    rewrite (bok _ _ _ _ _ E3). cbv beta iota. rewrite Hend. eexists _, _, _. split; [reflexivity|]. lia.
  - destruct Hf as (Hh & Hx & Hxa & Hxs). rewrite <- app_assoc. destruct Hh as [-> |(w & -> & Hw)].
    + change (lit "!") with [33]. cbn [app].
      pose proof (span_app is_alpha_c x) as Ex. pose proof (span_all is_alpha_c x) as Hw. pose proof (span_hd is_alpha_c x) as Hx'. destruct (span is_alpha_c x) as [w x']. cbn [fst snd] in *.
      assert (Hxa' : ascii x') by (rewrite Ex in Hxa; apply Forall_app in Hxa; apply Hxa). assert (Hxs' : shorthand x') by (rewrite Ex in Hxs; apply Forall_app in Hxs; apply Hxs).
      destruct (uri_head x' rest Hx' Ha) as [U1 U2].
      replace (uri x ++ rest) with (w ++ uri x' ++ rest) by (rewrite Ex, uri_app, (uri_alpha w Hw), <- app_assoc; reflexivity).
      match goal with |- context [chk 60 ?q] => replace (chk 60 q) with false end.
      2: { cbn [nth_error]. destruct w as [|c w]; cbn [app].
           - destruct x' as [|c x']; [rewrite app_nil_r in Ex; congruence|]. cbn [uri flat_map]. unfold uri1 at 1. destruct (tag_uri_char c) eqn:E; [|reflexivity]. cbn. destruct (N.eqb_spec c 60) as [-> |]; [discriminate E|reflexivity].
           - cbn in Hw |- *. destruct (N.eqb_spec c 60) as [-> |]; [discriminate Hw|reflexivity]. }
      destruct (handle_word s false m w (uri x' ++ rest) m Hid Hw U1 U2) as (m1 & E1 & L1); [discriminate|].
      destruct (uri_at s false false m (Some (33 :: w)) x' rest m1 Hid (blankz_not_uri _ _ Hr) Hxa' (or_intror Hxs')) as (m2 & E2 & L2); [discriminate|intros h [= <-]; discriminate|].
      match goal with |- context [bind ?M ?K (at_ s _ m)] => assert (E3 : M (at_ s (33 :: w ++ uri x' ++ rest) m) = (Ok ([33], x), at_ s rest m2)) end.
      { rewrite (bok _ _ _ _ _ E1).
        replace (starts_with 33 (33 :: w) && (1 <? str_len (33 :: w)) && ends_with 33 (33 :: w)) with false.
        2: { pose proof (last_alpha w Hw) as K. destruct w as [|c w]; [reflexivity|]. cbn [is_empty negb] in K. rewrite andb_true_r in K. rewrite K, andb_false_r. reflexivity. }
        rewrite (bok _ _ _ _ _ E2). cbv beta iota. rewrite <- Ex. destruct x; [congruence|]. reflexivity. }
      rewrite (bok _ _ _ _ _ E3). cbv beta iota. rewrite Hend. eexists _, _, _. split; [reflexivity|]. lia.
    + apply alpha_names in Hw. change (lit "!") with [33]. cbn [app]. rewrite <- app_assoc. cbn [app].
      match goal with |- context [chk 60 ?q] => replace (chk 60 q) with false end.
      2: { cbn [nth_error]. destruct w as [|c w]; [reflexivity|]. cbn in Hw |- *. destruct (N.eqb_spec c 60) as [-> |]; [discriminate Hw|reflexivity]. }
      destruct (handle_full s false m w (uri x ++ rest) m Hid Hw) as (m1 & E1 & L1).
      destruct (uri_at s false false m None x rest m1 Hid (blankz_not_uri _ _ Hr) Hxa (or_intror Hxs) (fun _ => Hx)) as (m2 & E2 & L2); [discriminate|].
      match goal with |- context [bind ?M ?K (at_ s _ m)] => assert (E3 : M (at_ s (33 :: w ++ 33 :: uri x ++ rest) m) = (Ok (33 :: w ++ [33], x), at_ s rest m2)) end.
      { rewrite (bok _ _ _ _ _ E1).
        replace (starts_with 33 (33 :: w ++ [33]) && (1 <? str_len (33 :: w ++ [33])) && ends_with 33 (33 :: w ++ [33])) with true.
        2: { unfold ends_with. rewrite app_comm_cons, last_app1. cbn [starts_with app]. rewrite str_len_cons, str_len_app, str_len_cons. change (len_utf8 33) with 1. change (33 =? 33) with true. cbn [andb]. rewrite andb_true_r. symmetry. lia. }
        rewrite (bok _ _ _ _ _ E2). reflexivity. }
      rewrite (bok _ _ _ _ _ E3). cbv beta iota. rewrite Hend. eexists _, _, _. split; [reflexivity|]. lia.
Qed.

(** ** Double-quoted scalars *)
Lemma quoted_at lf ats rest s m : ideal s -> lf_ok lf -> Forall (awf false lf) ats -> (forall x, cols 1 (x + 1) ats) ->
  scanned (scan_flow_scalar false) (34 :: flat ats ++ [34]) rest (TScalar (den g0 ats) SDouble) s m.
Proof.
  intros Hid Hlf Hf Hc. unfold scanned. cbn [app]. rewrite <- app_assoc. cbn [app].
  destruct (flow_at s false lf Hid Hlf rest ltac:(discriminate) ats m Hf (Hc _)) as (m' & E). cbn [quote_char] in E. eexists _, _, m'. split; [exact E|].
  pose proof (scan_flow_scalar_spec false (at_ s (34 :: flat ats ++ 34 :: rest) m)) as K.
  assert (H : spec (scan_flow_scalar false) (at_ s (34 :: flat ats ++ 34 :: rest) m) (tok_post (at_ s (34 :: flat ats ++ 34 :: rest) m))) by (apply K; [apply Hid|discriminate]).
  unfold spec, wp in H. match type of H with (let (_, _) := ?q in _) => change q with (scan_flow_scalar false (at_ s (34 :: flat ats ++ 34 :: rest) m)) in H; replace q with (Ok (Mk_token (TScalar (den g0 ats) SDouble) m m'), at_ s rest m') in H by (symmetry; exact E) end. destruct H as [H _]. apply adv_mark_le in H. unfold mark_le in H. cbn in H. lia.
Qed.

(** ** Directives *)
Lemma digit_at s sm d t m : ideal s -> d < 10 -> is_digit (nth_error t 0) = false ->
  scan_version_directive_number sm (at_ s (48 + d :: t) m) = (Ok (Z.of_N d), at_ s t (advance (len_utf8 (48 + d)) m)).
Proof.
  intros Hid Hd Ht. unfold scan_version_directive_number. rewrite (bok _ _ _ _ _ (c_at s Hid _ _ _)).
  match goal with |- context [loop ?b] => set (body := b) end.
  assert (L : lr body (0, 0) (at_ s (48 + d :: t) m) (d, 1) (at_ s t (advance (len_utf8 (48 + d)) m))).
  { refine (lr_go _ _ _ (d, 1) (at_ s t (advance (len_utf8 (48 + d)) m)) _ _ _ _ _); [|shorter|].
    - subst body. cbv beta iota. rewrite bgt, bget_at. cbn [nth_error is_digit]. assert (D : is_digit_c (48 + d) = true) by (unfold is_digit_c, in_range; lia). rewrite D.
      cbv zeta. change (9 <? 0 + 1) with false. cbv iota. cbn [as_digit]. rewrite D.
      rewrite (bok _ _ _ _ _ (skip_at _ _ _ _)), (bok _ _ _ _ _ (c_at s Hid _ _ _)). replace (0 * 10 + (48 + d - 48)) with d by lia. reflexivity.
    - apply lr_stop. subst body. cbv beta iota. rewrite bgt, bget_at, Ht. reflexivity. }
  rewrite (bok _ _ _ _ _ (lr_loop _ _ _ _ _ L)). reflexivity.
Qed.
Lemma blank_at s (t : str) m : ideal s -> is_blank (nth_error t 0) = false -> skip_while (fun s => is_blank (bget 0 s)) (at_ s (32 :: t) m) = (Ok tt, at_ s t (advance (len_utf8 32) m)).
Proof.
  intros Hid Ht. unfold skip_while. apply lr_loop. refine (lr_go _ _ _ tt (at_ s t (advance (len_utf8 32) m)) _ _ _ _ _); [|shorter|].
  - rewrite bgt, bget_at. cbn [nth_error]. change (is_blank (Some 32)) with true. cbv iota. rewrite (bok _ _ _ _ _ (skip_at _ _ _ _)), (bok _ _ _ _ _ (c_at s Hid _ _ _)). reflexivity.
  - apply lr_stop. rewrite bgt, bget_at, Ht. reflexivity.
Qed.
Lemma no_blank s (t : str) m : is_blank (nth_error t 0) = false -> skip_while (fun s => is_blank (bget 0 s)) (at_ s t m) = (Ok tt, at_ s t m).
Proof. intros Ht. unfold skip_while. apply lr_loop, lr_stop. rewrite bgt, bget_at, Ht. reflexivity. Qed.
Lemma name_at s sm (w t : str) m : ideal s -> w <> [] -> forallb is_alpha_c w = true -> blank_behind t ->
  exists m', scan_directive_name sm (at_ s (w ++ t) m) = (Ok w, at_ s t m') /\ m_line m' = m_line m.
Proof.
  intros Hid Hn Hw Ht. unfold scan_directive_name. rewrite (bok _ _ _ _ _ (c_at s Hid _ _ _)).
  destruct (read_word s Hid (fun s => is_alpha (bget 0 s)) t w [] m) as (m1 & E1 & L1).
  { intros c r m' Hc. rewrite bget_at. cbn [nth_error is_alpha]. rewrite forallb_forall in Hw. apply Hw, Hc. }
  { intros m'. rewrite bget_at. apply blankz_not_alpha, Ht. }
  rewrite (bok _ _ _ _ _ E1), bgt, bget_at. cbn [app]. replace (is_empty w) with false by (destruct w; [congruence|reflexivity]).
  unfold blank_behind in Ht. rewrite Ht. cbn [negb]. exists m1. split; [reflexivity|exact L1].
Qed.
(** The end of a directive. *)
Definition no_lf_before (lf rest : str) : Prop := match rest with 10 :: _ => lf <> [13] | _ => True end.
Lemma lf_breakz lf t : lf_ok lf -> is_breakz (nth_error (lf ++ t) 0) = true /\ is_blank (nth_error (lf ++ t) 0) = false /\ is_break (nth_error (lf ++ t) 0) = true /\
  chk 35 (nth_error (lf ++ t) 0) = false /\ is_blankz (nth_error (lf ++ t) 0) = true /\ is_digit (nth_error (lf ++ t) 0) = false.
Proof. intros Hlf. destruct (lf_first lf t Hlf) as (c & r & -> & [-> | ->]); repeat split. Qed.
Lemma directive_end s lf sm em d rest m : ideal s -> lf_ok lf -> no_lf_before lf rest ->
  exists m', (cache 1 ;;
  skip_while (fun s => is_blank (bget 0 s)) ;;
  s <- get ;;
  when (chk cHASH (bget 0 s)) (skip_while (fun s => negb (is_breakz (bget 0 s)))) ;;
  s <- get ;;
  if is_breakz (bget 0 s) then
    when (is_break (bget 0 s)) (cache 2 ;; skip_line_break) ;;
    ret (Mk_token d sm em)
  else
    scan_error "while scanning a directive" sm "did not find expected comment or line break") (at_ s (lf ++ rest) m) = (Ok (Mk_token d sm em), at_ s rest m') /\ m_line m <= m_line m' /\ m_col m' = 0.
Proof.
  intros Hid Hlf Hr. destruct (lf_breakz lf rest Hlf) as (B1 & B2 & B3 & B4 & _). destruct (slb s lf rest m Hlf Hr) as (w & E).
  exists (next_line w m). split; [|split; [cbn; lia|reflexivity]].
  rewrite (bok _ _ _ _ _ (c_at s Hid _ _ _)), (bok _ _ _ _ _ (no_blank s _ m B2)), bgt, bget_at, B4. cbn [when]. rewrite (bok (ret tt) _ _ tt _ eq_refl), bgt, bget_at, B1, B3. cbn [when].
  assert (E2 : (cache 2 ;; skip_line_break) (at_ s (lf ++ rest) m) = (Ok tt, at_ s rest (next_line w m))) by (rewrite (bok _ _ _ _ _ (c_at s Hid _ _ _)); exact E).
  rewrite (bok _ _ _ _ _ E2). reflexivity.
Qed.
(** A directive leaves the scanner at the beginning of a line. *)
Definition scanned0 (f : M sst token) (body rest : str) (d : token_data) (s : sst) (m : mark) : Prop :=
  exists a b m2, f (at_ s (body ++ rest) m) = (Ok (Mk_token d a b), at_ s rest m2) /\ m_line m <= m_line m2 /\ m_col m2 = 0.
Lemma version_at lf d rest s m : ideal s -> lf_ok lf -> no_lf_before lf rest -> d < 10 ->
  scanned0 scan_directive (lit "%YAML 1." ++ [48 + d] ++ lf) rest (TVersionDirective 1 (Z.of_N d)) s m.
Proof.
  intros Hid Hlf Hr Hd. unfold scanned0, scan_directive. rewrite bpos. change (lit "%YAML 1.") with (37 :: lit "YAML" ++ [32; 49; 46]).
  rewrite <- !app_assoc. cbn [app]. rewrite (bok _ _ _ _ _ (skip_at _ _ _ _)). 
  replace (lit "YAML" ++ [32; 49; 46] ++ 48 + d :: lf ++ rest) with (lit "YAML" ++ 32 :: 48 + 1 :: 46 :: 48 + d :: lf ++ rest) by reflexivity.
  destruct (name_at s m (lit "YAML") (32 :: 48 + 1 :: 46 :: 48 + d :: lf ++ rest) (advance (len_utf8 37) m) Hid) as (m1 & E1 & L1); [discriminate|reflexivity|reflexivity|].
  rewrite (bok _ _ _ _ _ E1). change (str_eqb (lit "YAML") (lit "YAML")) with true. cbv iota. 
  destruct (lf_breakz lf rest Hlf) as (_ & _ & _ & _ & _ & B).
  match goal with |- context [bind ?M ?K (at_ s _ m1)] => assert (E2 : M (at_ s (32 :: 48 + 1 :: 46 :: 48 + d :: lf ++ rest) m1) = (Ok (TVersionDirective 1 (Z.of_N d)), at_ s (lf ++ rest) (advance (len_utf8 (48 + d)) (advance (len_utf8 46) (advance (len_utf8 (48 + 1)) (advance (len_utf8 32) m1)))))) end.
  { assert (E3 : scan_version_directive_value m (at_ s (32 :: 48 + 1 :: 46 :: 48 + d :: lf ++ rest) m1) = (Ok (1%Z, Z.of_N d), at_ s (lf ++ rest) (advance (len_utf8 (48 + d)) (advance (len_utf8 46) (advance (len_utf8 (48 + 1)) (advance (len_utf8 32) m1)))))).
    { unfold scan_version_directive_value. rewrite (bok _ _ _ _ _ (c_at s Hid _ _ _)), (bok _ _ _ _ _ (blank_at s (48 + 1 :: 46 :: 48 + d :: lf ++ rest) m1 Hid eq_refl)), (bok _ _ _ _ _ (digit_at s m 1 (46 :: 48 + d :: lf ++ rest) _ Hid eq_refl eq_refl)), bgt, bget_at.
      cbn [nth_error chk]. change (46 =? 46) with true. cbn [negb]. rewrite (bok _ _ _ _ _ (skip_at _ _ _ _)), (bok _ _ _ _ _ (digit_at s m d _ _ Hid Hd B)). reflexivity. }
    rewrite (bok _ _ _ _ _ E3). reflexivity. }
  rewrite (bok _ _ _ _ _ E2), bpos. match goal with |- context [at_ s (lf ++ rest) ?q] => set (m3 := q) end.
  destruct (directive_end s lf m m3 (TVersionDirective 1 (Z.of_N d)) rest m3 Hid Hlf Hr) as (m4 & E4 & L4 & C4). exists m, m3, m4. split; [exact E4|]. split; [|exact C4].
  subst m3. cbn in L4. rewrite L1 in L4. cbn in L4. lia.
Qed.
Lemma tag_directive_at lf (h x rest : str) s m : ideal s -> lf_ok lf -> no_lf_before lf rest -> valid_handle h -> x <> [] -> ascii x ->
  scanned0 scan_directive (lit "%TAG " ++ h ++ [32] ++ uri x ++ lf) rest (TTagDirective h x) s m.
Proof.
  intros Hid Hlf Hr Hh Hx Ha. unfold scanned0, scan_directive. rewrite bpos. change (lit "%TAG ") with (37 :: lit "TAG" ++ [32]).
  rewrite <- !app_assoc. cbn [app]. rewrite (bok _ _ _ _ _ (skip_at _ _ _ _)). rewrite <- app_assoc. cbn [app].
  set (T := h ++ 32 :: uri x ++ lf ++ rest). 
  destruct (name_at s m (lit "TAG") (32 :: T) (advance (len_utf8 37) m) Hid) as (m1 & E1 & L1); [discriminate|reflexivity|reflexivity|].
  rewrite (bok _ _ _ _ _ E1). change (str_eqb (lit "TAG") (lit "YAML")) with false. change (str_eqb (lit "TAG") (lit "TAG")) with true. cbv iota.
  assert (Hb : is_blank (nth_error T 0) = false) by (subst T; destruct Hh as [-> |(w & -> & _)]; reflexivity).
  assert (Eh : forall m2, exists m3, scan_tag_handle true m (at_ s T m2) = (Ok h, at_ s (32 :: uri x ++ lf ++ rest) m3) /\ m_line m3 = m_line m2).
  { intros m2. subst T. destruct Hh as [-> |(w & -> & Hw)].
    - apply (handle_word s true m [] (32 :: uri x ++ lf ++ rest) m2 Hid eq_refl eq_refl eq_refl). reflexivity.
    - apply alpha_names in Hw. replace ((lit "!" ++ w ++ lit "!") ++ 32 :: uri x ++ lf ++ rest) with (33 :: w ++ 33 :: 32 :: uri x ++ lf ++ rest) by (change (lit "!") with [33]; cbn [app]; rewrite <- app_assoc; reflexivity).
      apply (handle_full s true m w _ m2 Hid Hw). }
  destruct (lf_breakz lf rest Hlf) as (B1 & B2 & B3 & B4 & B5 & B6).
  assert (E2 : exists m5, (if true then '(handle, prefix) <- scan_tag_directive_value m ;; ret (TTagDirective handle prefix) else ret TKey) (at_ s (32 :: T) m1) = (Ok (TTagDirective h x), at_ s (lf ++ rest) m5) /\ m_line m5 = m_line m1).
  { destruct (Eh (advance (len_utf8 32) m1)) as (m3 & E3 & L3).
    assert (Hb2 : is_blank (nth_error (uri x ++ lf ++ rest) 0) = false).
    { destruct x as [|c x]; [congruence|]. cbn [uri flat_map]. unfold uri1 at 1. destruct (tag_uri_char c) eqn:E; [|reflexivity]. cbn. destruct (N.eqb_spec c 32) as [-> |]; [discriminate E|]. destruct (N.eqb_spec c 9) as [-> |]; [discriminate E|]. unfold is_blank, is_space, is_tab. cbn [chk]. lia. }
    destruct (uri_at s true true m None x (lf ++ rest) (advance (len_utf8 32) m3) Hid (blankz_not_uri _ _ B5) Ha (or_introl eq_refl) (fun _ => Hx)) as (m5 & E5 & L5); [discriminate|].
    exists m5. split; [|rewrite L5; cbn; rewrite L3; reflexivity].
    assert (E6 : scan_tag_directive_value m (at_ s (32 :: T) m1) = (Ok (h, x), at_ s (lf ++ rest) m5)).
    { unfold scan_tag_directive_value. rewrite (bok _ _ _ _ _ (c_at s Hid _ _ _)), (bok _ _ _ _ _ (blank_at s _ m1 Hid Hb)), (bok _ _ _ _ _ E3), (bok _ _ _ _ _ (c_at s Hid _ _ _)), bgt, bget_at.
      cbn [nth_error]. change (is_blank (Some 32)) with true. cbn [negb]. rewrite (bok _ _ _ _ _ (blank_at s _ m3 Hid Hb2)), (bok _ _ _ _ _ E5), (bok _ _ _ _ _ (c_at s Hid _ _ _)), bgt, bget_at, B5. reflexivity. }
    cbv iota. rewrite (bok _ _ _ _ _ E6). reflexivity. }
  destruct E2 as (m5 & E2 & L2). cbv iota in E2. match goal with |- context [bind ?M ?K (at_ s _ m1)] => rewrite (bok M K _ _ _ E2) end. rewrite bpos.
  destruct (directive_end s lf m m5 (TTagDirective h x) rest m5 Hid Hlf Hr) as (m6 & E6 & L6 & C6). exists m, m5, m6. split; [exact E6|]. split; [|exact C6].
  rewrite L2, L1 in L6. cbn in L6. exact L6.
Qed.
