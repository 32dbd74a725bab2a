(** StyleFacts.v -- the analysis of scalars (emitter.rs) against Spec_Styles.v. *)
From Coq Require Import Lia ZifyBool ZifyNat ZifyN Bool.
From Verif Require Import Base Chars EState Emitter Spec_Styles EmitGrammar ScanFacts.
Open Scope N_scope.

(** All the characters of a string with what is before and behind them. *)
Fixpoint spots (a v : str) : list (str * char * str) :=
  match v with [] => [] | x :: b => (a, x, b) :: spots (a ++ [x]) b end.
Lemma in_spots v : forall a p x b, In (p, x, b) (spots a v) <-> exists a', p = a ++ a' /\ v = a' ++ x :: b.
Proof.
  induction v as [|y v IH]; intros a p x b; cbn [spots In].
  - split; [contradiction|]. intros (a' & _ & H). destruct a'; discriminate.
  - rewrite IH. split.
    + intros [H|(a' & -> & ->)]; [injection H as <- <- <-; exists []; split; [symmetry; apply app_nil_r|reflexivity]|].
      exists (y :: a'). rewrite <- app_assoc. split; reflexivity.
    + intros ([|z a'] & -> & E); injection E as E1 E2; subst.
      * left. rewrite app_nil_r. reflexivity.
      * right. exists a'. rewrite <- app_assoc. split; reflexivity.
Qed.

(** The flags that remember the previous character. *)
Definition prev_ok (a : str) (f : sflags) : Prop :=
  f_previous_space f = match last_opt a with Some y => y =? cSP | None => false end /\
  f_previous_break f = match last_opt a with Some y => negb (y =? cSP) && is_break_c y | None => false end /\
  f_preceded_by_whitespace f = match last_opt a with Some y => is_blankz (Some y) | None => true end.

(** What one character contributes to each flag. *)
Definition c_ind (a : str) (x : char) (b : str) : bool * bool :=
  if is_empty a then indicators_first x (is_blankz (hd_opt b))
  else indicators_next x (is_blankz (hd_opt b)) (match last_opt a with Some y => is_blankz (Some y) | None => true end).
Definition step_flags (u : bool) (a : str) (f : sflags) (x : char) (b : str) : sflags :=
  let space := x =? cSP in let brk := negb space && is_break_c x in
  Mk_sf (f_block_indicators f || snd (c_ind a x b)) (f_flow_indicators f || fst (c_ind a x b))
    (f_line_breaks f || is_break_c x)
    (f_special f || negb (is_printable x) || negb (is_ascii x) && negb u)
    (f_leading_space f || space && is_empty a) (f_leading_break f || brk && is_empty a)
    (f_trailing_space f || space && is_z (hd_opt b)) (f_trailing_break f || brk && is_z (hd_opt b))
    (f_break_space f || space && match last_opt a with Some y => negb (y =? cSP) && is_break_c y | None => false end)
    (f_space_break f || brk && match last_opt a with Some y => y =? cSP | None => false end)
    space brk (is_blankz (Some x)).
Lemma step_eq u a f x b : prev_ok a f -> analyze_loop u (is_empty a) f (x :: b) = analyze_loop u (is_empty (a ++ [x])) (step_flags u a f x b) b.
Proof.
  intros (H1 & H2 & H3). cbn [analyze_loop]. unfold step_flags, c_ind. rewrite H1, H2, H3.
  replace (is_empty (a ++ [x])) with false by (destruct a; reflexivity).
  destruct (is_empty a); match goal with |- context [let '(fi, bi) := ?t in _] => destruct t as [fi bi] end; reflexivity.
Qed.
Lemma step_prev u a f x b : prev_ok (a ++ [x]) (step_flags u a f x b).
Proof. unfold prev_ok. rewrite last_app1. repeat split. Qed.
(** A flag that is set by some characters is set iff one of them occurs. *)
Lemma flag_spots (sel : sflags -> bool) (c : str -> char -> str -> bool) u :
  (forall a f x b, sel (step_flags u a f x b) = sel f || c a x b) ->
  forall v a f, prev_ok a f -> sel (analyze_loop u (is_empty a) f v) = sel f || existsb (fun '(a, x, b) => c a x b) (spots a v).
Proof.
  intros Hc. induction v as [|x v IH]; intros a f Hp.
  - cbn [analyze_loop spots existsb]. symmetry. apply orb_false_r.
  - rewrite step_eq by exact Hp. rewrite IH by apply step_prev. rewrite Hc. cbn [spots existsb]. symmetry. apply orb_assoc.
Qed.
Definition flags0 (d : bool) : sflags := Mk_sf d d false false false false false false false false false false true.
Lemma prev0 d : prev_ok [] (flags0 d). Proof. repeat split. Qed.
Lemma flag_of (sel : sflags -> bool) c u v d : (forall a f x b, sel (step_flags u a f x b) = sel f || c a x b) -> sel (flags0 d) = false ->
  sel (analyze_loop u true (flags0 d) v) = false <-> forall a x b, v = a ++ x :: b -> c a x b = false.
Proof.
  intros Hc H0. pose proof (flag_spots sel c u Hc v [] _ (prev0 d)) as F. cbn [is_empty] in F. rewrite F, H0. clear F. cbn [orb]. split.
  - intros H a x b E. destruct (c a x b) eqn:Ec; [|reflexivity]. enough (existsb (fun '(a, x, b) => c a x b) (spots [] v) = true) by congruence.
    apply existsb_exists. exists (a, x, b). split; [|exact Ec]. apply in_spots. exists a. auto.
  - intros H. destruct (existsb _ _) eqn:Ee; [|reflexivity]. apply existsb_exists in Ee. destruct Ee as ([[a x] b] & Hi & Ex).
    apply in_spots in Hi. destruct Hi as (a' & -> & E). cbn [app] in Ex. rewrite (H a' x b E) in Ex. discriminate.
Qed.
Lemma flag_ind (sel : sflags -> bool) c u v d : (forall a f x b, sel (step_flags u a f x b) = sel f || c a x b) -> sel (flags0 d) = d ->
  sel (analyze_loop u true (flags0 d) v) = false <-> d = false /\ forall a x b, v = a ++ x :: b -> c a x b = false.
Proof.
  intros Hc H0. destruct d.
  - pose proof (flag_spots sel c u Hc v [] _ (prev0 true)) as F. cbn [is_empty] in F. rewrite F, H0. clear F. cbn [orb]. split; [discriminate|intros [H _]; discriminate].
  - rewrite (flag_of sel c u v false Hc H0). tauto.
Qed.

(** ** Characters *)
Lemma break_spec x : is_break_c x = true <-> line_break x. Proof. unfold is_break_c, line_break. lia. Qed.
Lemma space_spec x : (x =? cSP) = true <-> space x. Proof. unfold space. lia. Qed.
Lemma space_not_break x : space x -> ~ line_break x. Proof. unfold space, line_break. lia. Qed.
Lemma printable_spec x : is_printable x = true <-> printable x.
Proof. unfold is_printable, printable, in_range. destruct (_ || _) eqn:E; lia. Qed.
Lemma ascii_spec x : is_ascii x = true <-> x < 128. Proof. unfold is_ascii. lia. Qed.
Lemma white_spec x : is_blankz (Some x) = true <-> white x.
Proof. unfold is_blankz, is_blank, is_breakz, is_break, is_z, white, blank. rewrite orb_true_iff, orb_false_l, break_spec. unfold is_space, is_tab, chk, line_break. lia. Qed.
Lemma behind_spec b : is_blankz (hd_opt b) = true <-> white_behind b.
Proof. destruct b as [|y b]; cbn [hd_opt white_behind]; [split; reflexivity || auto|apply white_spec]. Qed.
Lemma before_spec a : a <> [] -> (match last_opt a with Some y => is_blankz (Some y) | None => true end) = true <-> white_before a.
Proof.
  destruct a as [|y a _] using rev_ind; [congruence|]. intros _. rewrite last_app1, white_spec. unfold white_before. split.
  - intros H. right. exists a, y. auto.
  - intros [H|(a' & z & H & Hz)]; [destruct a; discriminate|]. apply app_inj_tail in H. destruct H as [_ ->]. exact Hz.
Qed.
Lemma in_spec x l : existsb (N.eqb x) l = true <-> In x l.
Proof. rewrite existsb_exists. split; [intros (y & H & E); apply N.eqb_eq in E; congruence|intros H; exists x; split; [exact H|apply N.eqb_refl]]. Qed.
Lemma first_spec x b : (fst (indicators_first x (is_blankz (hd_opt b))) = true <-> bad_first true x b) /\
  (snd (indicators_first x (is_blankz (hd_opt b))) = true <-> bad_first false x b).
Proof.
  pose proof (behind_spec b) as B. unfold indicators_first, bad_first. 
  set (w := is_blankz (hd_opt b)) in *. clearbody w. revert B. generalize (white_behind b). intros W B.
  match goal with |- context [existsb (N.eqb x) ?l] => pose proof (in_spec x l) as Hi; destruct (existsb (N.eqb x) l) end.
  { cbn [fst snd]. tauto. }
  assert (Hn : ~ In x [35; 44; 91; 93; 123; 125; 38; 42; 33; 124; 62; 39; 34; 37; 64; 96]) by (intros H; apply Hi in H; discriminate).
  clear Hi. revert Hn. generalize (In x [35; 44; 91; 93; 123; 125; 38; 42; 33; 124; 62; 39; 34; 37; 64; 96]). intros P Hn.
  destruct ((x =? cQM) || (x =? cCOLON)) eqn:E1.
  - cbn [fst snd]. assert (E : x = 63 \/ x = 58) by lia. rewrite B. assert (x <> 45) by lia. intuition congruence.
  - assert (E : ~ (x = 63 \/ x = 58)) by lia. destruct (x =? cMINUS) eqn:E2.
    + assert (x = 45) by lia. destruct w; cbn [andb fst snd]; intuition congruence.
    + assert (x <> 45) by lia. cbn [andb fst snd]. intuition congruence.
Qed.
Lemma next_spec a x b : a <> [] ->
  let i := indicators_next x (is_blankz (hd_opt b)) (match last_opt a with Some y => is_blankz (Some y) | None => true end) in
  (fst i = true <-> bad_inside true a x b) /\ (snd i = true <-> bad_inside false a x b).
Proof.
  intros Ha. pose proof (behind_spec b) as B. pose proof (before_spec a Ha) as C. unfold indicators_next, bad_inside.
  set (w := is_blankz (hd_opt b)) in *. clearbody w. revert B. generalize (white_behind b). intros W B.
  set (p := match last_opt a with Some _ => _ | None => true end) in *. clearbody p. revert C. generalize (white_before a). intros P C. cbv zeta.
  cbn [existsb In]. destruct (_ || _) eqn:E1; cbn [fst snd].
  { assert (Hx : x <> 58 /\ x <> 35 /\ (x = 44 \/ x = 63 \/ x = 91 \/ x = 93 \/ x = 123 \/ x = 125)) by lia. intuition congruence. }
  assert (Hn : x <> 44 /\ x <> 63 /\ x <> 91 /\ x <> 93 /\ x <> 123 /\ x <> 125) by lia. clear E1.
  destruct (x =? cCOLON) eqn:E2; cbn [fst snd].
  - assert (x = 58 /\ x <> 35) by lia. rewrite B. intuition congruence.
  - assert (x <> 58) by lia. destruct (x =? cHASH) eqn:E3; cbn [andb].
    + assert (x = 35) by lia. destruct p; cbn [fst snd]; intuition congruence.
    + assert (x <> 35) by lia. cbn [fst snd]. intuition congruence.
Qed.

(** ** The flags of the whole string *)
Section flags.
Variables (u d : bool) (v : str).
Local Notation F := (analyze_loop u true (flags0 d) v).
Lemma fl_lines : f_line_breaks F = false <-> Forall (fun x => ~ line_break x) v.
Proof.
  rewrite (flag_of f_line_breaks (fun _ x _ => is_break_c x)) by reflexivity. rewrite Forall_forall. split.
  - intros H x Hx Hb. apply in_split in Hx. destruct Hx as (a & b & E). apply break_spec in Hb. rewrite (H a x b E) in Hb. discriminate.
  - intros H a x b E. destruct (is_break_c x) eqn:Eb; [|reflexivity]. apply break_spec in Eb. destruct (H x); [rewrite E; apply in_elt|exact Eb].
Qed.
Lemma fl_special : f_special F = false <-> Forall (writable u) v.
Proof.
  rewrite (flag_of f_special (fun _ x _ => negb (is_printable x) || negb (is_ascii x) && negb u)) by (intros; cbn; rewrite ?orb_assoc; reflexivity).
  assert (W : forall x, negb (is_printable x) || negb (is_ascii x) && negb u = false <-> writable u x).
  { intros x. unfold writable. rewrite <- printable_spec, <- ascii_spec. destruct (is_printable x), (is_ascii x), u; cbn; intuition congruence. }
  rewrite Forall_forall. split.
  - intros H x Hx. apply in_split in Hx. destruct Hx as (a & b & E). apply W, (H a x b E).
  - intros H a x b E. apply W, H. rewrite E. apply in_elt.
Qed.
Lemma fl_leading_space : f_leading_space F = false <-> (forall x b, v = x :: b -> ~ space x).
Proof.
  rewrite (flag_of f_leading_space (fun a x _ => (x =? cSP) && is_empty a)) by reflexivity. split.
  - intros H x b E S. apply space_spec in S. specialize (H [] x b E). rewrite S in H. discriminate.
  - intros H a x b E. destruct a as [|y a]; [|apply andb_false_r]. destruct (x =? cSP) eqn:S; [|reflexivity]. apply space_spec in S. destruct (H x b E S).
Qed.
Lemma fl_leading_break : f_leading_break F = false <-> (forall x b, v = x :: b -> ~ line_break x).
Proof.
  rewrite (flag_of f_leading_break (fun a x _ => negb (x =? cSP) && is_break_c x && is_empty a)) by reflexivity. split.
  - intros H x b E S. assert (N : x =? cSP = false) by (unfold line_break in S; lia). apply break_spec in S. specialize (H [] x b E). rewrite S, N in H. discriminate.
  - intros H a x b E. destruct a as [|y a]; [|apply andb_false_r]. destruct (is_break_c x) eqn:S; [|rewrite andb_false_r; reflexivity]. apply break_spec in S. destruct (H x b E S).
Qed.
Lemma fl_trailing_space : f_trailing_space F = false <-> (forall a x, v = a ++ [x] -> ~ space x).
Proof.
  rewrite (flag_of f_trailing_space (fun _ x b => (x =? cSP) && is_z (hd_opt b))) by reflexivity. split.
  - intros H a x E S. apply space_spec in S. specialize (H a x [] E). rewrite S in H. discriminate.
  - intros H a x b E. destruct b as [|y b]; [|apply andb_false_r]. destruct (x =? cSP) eqn:S; [|reflexivity]. apply space_spec in S. destruct (H a x E S).
Qed.
Lemma fl_trailing_break : f_trailing_break F = false <-> (forall a x, v = a ++ [x] -> ~ line_break x).
Proof.
  rewrite (flag_of f_trailing_break (fun _ x b => negb (x =? cSP) && is_break_c x && is_z (hd_opt b))) by reflexivity. split.
  - intros H a x E S. assert (N : x =? cSP = false) by (unfold line_break in S; lia). apply break_spec in S. specialize (H a x [] E). rewrite S, N in H. discriminate.
  - intros H a x b E. destruct b as [|y b]; [|apply andb_false_r]. destruct (is_break_c x) eqn:S; [|rewrite andb_false_r; reflexivity]. apply break_spec in S. destruct (H a x E S).
Qed.
Lemma fl_break_space : f_break_space F = false <-> no_break_space v.
Proof.
  rewrite (flag_of f_break_space (fun a x _ => (x =? cSP) && match last_opt a with Some y => negb (y =? cSP) && is_break_c y | None => false end)) by reflexivity.
  split.
  - intros H a y b x E S1 S2. specialize (H (a ++ [y]) x b). rewrite <- app_assoc in H. specialize (H E). rewrite last_app1 in H.
    assert (N : y =? cSP = false) by (unfold line_break in S1; lia). apply break_spec in S1. apply space_spec in S2. rewrite S1, S2, N in H. discriminate.
  - intros H a x b E. destruct (x =? cSP) eqn:S; [|reflexivity]. destruct a as [|y a _] using rev_ind; [reflexivity|]. rewrite last_app1.
    destruct (is_break_c y) eqn:B; [|apply andb_false_r]. apply break_spec in B. apply space_spec in S. rewrite <- app_assoc in E. destruct (H a y b x E B S).
Qed.
Lemma fl_space_break : f_space_break F = false <-> no_space_break v.
Proof.
  rewrite (flag_of f_space_break (fun a x _ => negb (x =? cSP) && is_break_c x && match last_opt a with Some y => y =? cSP | None => false end)) by reflexivity.
  split.
  - intros H a y b x E S1 S2. specialize (H (a ++ [y]) x b). rewrite <- app_assoc in H. specialize (H E). rewrite last_app1 in H.
    assert (N : x =? cSP = false) by (unfold line_break in S2; lia). apply break_spec in S2. apply space_spec in S1. rewrite S1, S2, N in H. discriminate.
  - intros H a x b E. destruct (is_break_c x) eqn:S; [|rewrite andb_false_r; reflexivity]. destruct a as [|y a _] using rev_ind; [apply andb_false_r|]. rewrite last_app1.
    destruct (y =? cSP) eqn:B; [|apply andb_false_r]. apply break_spec in S. apply space_spec in B. rewrite <- app_assoc in E. destruct (H a y b x E B S).
Qed.
Lemma fl_indicators (flow : bool) : (if flow then f_flow_indicators F else f_block_indicators F) = false <->
  d = false /\ (forall x b, v = x :: b -> ~ bad_first flow x b) /\ (forall a x b, a <> [] -> spot v a x b -> ~ bad_inside flow a x b).
Proof.
  assert (E1 : (if flow then f_flow_indicators F else f_block_indicators F) = false <-> d = false /\
    forall a x b, v = a ++ x :: b -> (if flow then fst (c_ind a x b) else snd (c_ind a x b)) = false).
  { destruct flow.
    - exact (flag_ind f_flow_indicators (fun a x b => fst (c_ind a x b)) u v d ltac:(reflexivity) eq_refl).
    - exact (flag_ind f_block_indicators (fun a x b => snd (c_ind a x b)) u v d ltac:(reflexivity) eq_refl). }
  rewrite E1. clear E1. apply and_iff_compat_l. split.
  - intros H. split.
    + intros x b E B. specialize (H [] x b E). unfold c_ind in H. cbn [is_empty] in H. destruct (first_spec x b) as [F1 F2].
      destruct flow; [apply F1 in B|apply F2 in B]; congruence.
    + intros a x b Ha E B. specialize (H a x b E). unfold c_ind in H. replace (is_empty a) with false in H by (destruct a; [congruence|reflexivity]).
      destruct (next_spec a x b Ha) as [F1 F2]. destruct flow; [apply F1 in B|apply F2 in B]; congruence.
  - intros [H1 H2] a x b E. destruct (if flow then _ else _) eqn:B; [exfalso|reflexivity]. unfold c_ind in B. destruct a as [|y a].
    + cbn [is_empty] in B. destruct (first_spec x b) as [F1 F2]. apply (H1 x b E). destruct flow; [apply F1|apply F2]; exact B.
    + cbn [is_empty] in B. assert (Ha : y :: a <> []) by discriminate. destruct (next_spec (y :: a) x b Ha) as [F1 F2]. apply (H2 _ x b Ha E). destruct flow; [apply F1|apply F2]; exact B.
Qed.
End flags.
Lemma firstn3 (v : str) a b c : str_eqb (firstn 3 v) [a; b; c] = true <-> exists r, v = [a; b; c] ++ r.
Proof.
  rewrite str_eqb_eq. split.
  - intros H. exists (skipn 3 v). rewrite <- H. symmetry. apply firstn_skipn.
  - intros (r & ->). reflexivity.
Qed.
Lemma marker_spec v : starts_doc_marker v = true <-> document_marker v.
Proof.
  unfold starts_doc_marker, document_marker. change (lit "---") with [45; 45; 45]. change (lit "...") with [46; 46; 46].
  rewrite orb_true_iff, !firstn3. split; [intros [[r H]|[r H]]; exists r; auto|intros [r [H|H]]; [left|right]; exists r; exact H].
Qed.

(** ** The analysis *)
Theorem analysis_single u v : sa_single_quoted_allowed (analyze_scalar u v) = true <-> single_text u v.
Proof.
  unfold analyze_scalar. destruct (is_empty v) eqn:E.
  { apply is_empty_true in E. subst v. cbn. split; [intros _|reflexivity]. split; [constructor|]. split; intros a y b x H; destruct a; discriminate. }
  cbv zeta. cbn [sa_single_quoted_allowed]. change (Mk_sf ?d ?d _ _ _ _ _ _ _ _ _ _ _) with (flags0 d).
  rewrite negb_true_iff, !orb_false_iff, fl_break_space, fl_space_break, fl_special. unfold single_text. tauto.
Qed.
Theorem analysis_block u v : sa_block_allowed (analyze_scalar u v) = true <-> block_text u v /\ v <> [].
Proof.
  unfold analyze_scalar. destruct (is_empty v) eqn:E.
  { apply is_empty_true in E. subst v. cbn. split; [discriminate|intros [_ H]; congruence]. }
  cbv zeta. cbn [sa_block_allowed]. change (Mk_sf ?d ?d _ _ _ _ _ _ _ _ _ _ _) with (flags0 d).
  rewrite negb_true_iff, !orb_false_iff, fl_trailing_space, fl_space_break, fl_special. unfold block_text. apply is_empty_false in E. tauto.
Qed.
Theorem analysis_multiline u v : sa_multiline (analyze_scalar u v) = false <-> Forall (fun x => ~ line_break x) v.
Proof.
  unfold analyze_scalar. destruct (is_empty v) eqn:E; [apply is_empty_true in E; subst v; cbn; split; auto|].
  cbv zeta. cbn [sa_multiline]. change (Mk_sf ?d ?d _ _ _ _ _ _ _ _ _ _ _) with (flags0 d). apply fl_lines.
Qed.
Lemma analysis_value u v : sa_value (analyze_scalar u v) = v.
Proof. unfold analyze_scalar. destruct (is_empty v) eqn:E; [apply is_empty_true in E; subst v|]; reflexivity. Qed.
Lemma one_line_no_spaces v : Forall (fun x => ~ line_break x) v -> no_break_space v /\ no_space_break v.
Proof.
  intros H. rewrite Forall_forall in H. split; intros a y b x E S1 S2.
  - apply (H y); [rewrite E; apply in_elt|exact S1].
  - apply (H x); [rewrite E; apply in_or_app; right; right; left; reflexivity|exact S2].
Qed.
Theorem analysis_plain u (flow : bool) v : v <> [] ->
  (if flow then sa_flow_plain_allowed (analyze_scalar u v) else sa_block_plain_allowed (analyze_scalar u v)) = true <-> plain_text u flow v.
Proof.
  intros Hv. unfold analyze_scalar. replace (is_empty v) with false by (destruct v; [congruence|reflexivity]).
  cbv zeta. change (Mk_sf ?d ?d _ _ _ _ _ _ _ _ _ _ _) with (flags0 d).
  set (d := starts_doc_marker v). set (f := analyze_loop u true (flags0 d) v).
  match goal with |- (if flow then sa_flow_plain_allowed ?r else _) = true <-> _ => set (R := r) end.
  assert (E : (if flow then sa_flow_plain_allowed R else sa_block_plain_allowed R) = true <->
    f_leading_space f = false /\ f_leading_break f = false /\ f_trailing_space f = false /\ f_trailing_break f = false /\ f_break_space f = false /\ f_space_break f = false /\ f_special f = false /\ f_line_breaks f = false /\
    (if flow then f_flow_indicators f else f_block_indicators f) = false).
  { unfold R. destruct flow; cbn [sa_flow_plain_allowed sa_block_plain_allowed]; rewrite negb_true_iff, !orb_false_iff; tauto. }
  rewrite E. clear E. unfold f. rewrite fl_leading_space, fl_leading_break, fl_trailing_space, fl_trailing_break, fl_break_space, fl_space_break, fl_special, fl_lines, fl_indicators.
  unfold plain_text. assert (D : d = false <-> ~ document_marker v) by (unfold d; rewrite <- marker_spec; destruct (starts_doc_marker v); intuition congruence).
  rewrite D. split.
  - intros (H1 & H2 & H3 & H4 & H5 & H6 & H7 & H8 & H9 & H10 & H11). split; [exact H7|]. split; [exact H8|]. split; [intros x b Ex; split; [apply (H1 x b Ex)|apply (H10 x b Ex)]|]. auto.
  - intros (H1 & H2 & H3 & H4 & H5 & H6). destruct (one_line_no_spaces v H2) as [Z1 Z2]. rewrite Forall_forall in H2.
    split; [intros x b Ex; apply (H3 x b Ex)|]. split; [intros x b Ex; apply H2; rewrite Ex; left; reflexivity|]. split; [exact H4|].
    split; [intros a x Ex; apply H2; rewrite Ex; apply in_elt|]. split; [exact Z1|]. split; [exact Z2|]. split; [exact H1|]. split; [apply Forall_forall, H2|].
    split; [exact H6|]. split; [intros x b Ex; apply (H3 x b Ex)|exact H5].
Qed.
Lemma analysis_empty u : analyze_scalar u [] = Mk_sa [] false false true true false SAny. Proof. reflexivity. Qed.
Lemma plain_text_empty u flow : plain_text u flow [].
Proof.
  unfold plain_text. split; [constructor|]. split; [constructor|]. split; [discriminate|]. split; [intros a x E; destruct a; discriminate|].
  split; [intros a x b Ha E; destruct a; discriminate E|]. intros [b [H|H]]; discriminate.
Qed.
