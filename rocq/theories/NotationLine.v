(** NotationLine.v -- which lines are read as the event they were printed for. *)
From Coq Require Import Lia ZifyBool ZifyNat ZifyN Bool.
From Verif Require Import Base Chars State Reader Scanner Parser EState Emitter Spec_EmitNames Spec_Notation Tools NotationFacts.
Open Scope N_scope.

Definition good_anchor_gap (a t : option str) (v : str) : Prop := a = None -> ~ In 38 (text_of t) /\ no_ampersand v.
Lemma tag_no38 t : ~ In 38 (print_tag t) <-> ~ In 38 (text_of t).
Proof.
  destruct t as [t|]; [|tauto]. cbn. split; intros H K; apply H.
  - right. right. apply in_app_iff. left. exact K.
  - destruct K as [K|[K|K]]; try discriminate. apply in_app_iff in K. destruct K as [K|[K|[]]]; [exact K|discriminate].
Qed.
(** the anchor *)
Lemma line_anchor kind a t rest : ~ In 38 kind -> all valid_name a -> rest = [] \/ (exists r, rest = 32 :: r) ->
  (get_anchor 38 (kind ++ print_anchor a ++ print_tag t ++ rest) = a <-> (a = None -> no_ampersand (kind ++ print_tag t ++ rest))).
Proof.
  intros Hk Ha Hr. destruct a as [a|].
  - split; [discriminate|]. intros _. destruct Ha as [Hne Ha]. cbn [print_anchor]. change (lit " &" ++ a) with ([32] ++ 38 :: a). rewrite <- app_assoc, app_assoc. cbn [app].
    apply anchor_found; [rewrite in_app_iff; cbn; intuition discriminate|exact Hne|apply name_not; [nn|exact Ha]|].
    destruct t as [t|]; [right; eexists; reflexivity|]. exact Hr.
  - cbn [print_anchor app]. rewrite anchor_none. tauto.
Qed.
Lemma line_no_amp kind t c v : ~ In 38 kind -> c <> 38 -> no_ampersand (kind ++ print_tag t ++ [32; c] ++ print_escaped v) <-> ~ In 38 (text_of t) /\ no_ampersand v.
Proof.
  intros Hk Hc. rewrite <- tag_no38. split.
  - intros H. assert (K : ~ In 38 (kind ++ print_tag t)). { refine (no_amp_in _ ([32; c] ++ print_escaped v) _ _); [discriminate|]. rewrite <- app_assoc. exact H. }
    rewrite in_app_iff in K. split; [tauto|]. rewrite !app_assoc in H. apply no_amp_app in H; [exact H|]. rewrite !in_app_iff. cbn. intros [[L|L]|L]; try tauto. intuition congruence.
  - intros [H1 H2]. rewrite !app_assoc. apply no_amp_app; [|exact H2]. rewrite !in_app_iff. cbn. intros [[L|L]|L]; try tauto. intuition congruence.
Qed.
Lemma line_no_amp_short kind t : ~ In 38 kind -> no_ampersand (kind ++ print_tag t) <-> ~ In 38 (text_of t).
Proof.
  intros Hk. rewrite <- tag_no38. split.
  - intros H. destruct t as [t|]; [|intros []]. cbn [print_tag] in *. rewrite !app_assoc in H. apply no_amp_in in H; [|discriminate]. rewrite !in_app_iff in *. cbn in *. intuition discriminate.
  - intros H. apply no_amp_none. rewrite in_app_iff. tauto.
Qed.
(** the tag *)
Lemma line_tag kind a t v pre : ~ In 60 kind -> all valid_name a -> ~ In 60 pre ->
  (get_tag (kind ++ print_anchor a ++ print_tag t ++ pre ++ print_escaped v) = t <-> match t with Some t => good_tag t | None => no_angles v end).
Proof.
  intros Hk Ha Hp. assert (K : ~ In 60 (kind ++ print_anchor a)) by (rewrite in_app_iff; intros [L|L]; [exact (Hk L)|]; revert L; apply print_anchor_no; [exact Ha|nn|discriminate|discriminate]).
  rewrite (app_assoc kind). destruct t as [t|].
  - cbn [print_tag]. change (lit " <" ++ t ++ lit ">") with ([32] ++ 60 :: t ++ [62]). rewrite <- !app_assoc. cbn [app]. rewrite <- !app_assoc. cbn [app].
    pose proof (tag_found ((kind ++ print_anchor a) ++ [32]) t (pre ++ print_escaped v)) as G. rewrite <- !app_assoc in G. cbn [app] in G. apply G.
    rewrite app_assoc, in_app_iff. intros [L|[L|[]]]; [exact (K L)|discriminate L].
  - cbn [print_tag app]. rewrite app_assoc. apply tag_none. rewrite in_app_iff. tauto.
Qed.
(** the value *)
Lemma line_value kind a t s c e : ~ In 32 kind -> all valid_name a -> style_sigil s = Some c ->
  find_value (kind ++ print_anchor a ++ print_tag t ++ [32; c] ++ e) = match t with None => Some (s, e) | Some t => find_value (t ++ 62 :: 32 :: c :: e) end.
Proof.
  intros Hk Ha Hs. destruct (sigil_of s c Hs) as (Hc & _). rewrite find_skip by exact Hk.
  assert (R : find_value (print_tag t ++ [32; c] ++ e) = match t with None => Some (s, e) | Some t => find_value (t ++ 62 :: 32 :: c :: e) end).
  { destruct t as [t|]; cbn [print_tag app].
    - change (lit " <" ++ t ++ lit ">") with (32 :: 60 :: t ++ [62]). cbn [app find_value]. change (32 =? 32) with true. cbv iota. change (sigil_style 60) with (@None scalar_style). cbv iota. change (60 =? 32) with false. cbv iota. rewrite <- app_assoc. reflexivity.
    - cbn [find_value]. change (32 =? 32) with true. cbv iota. rewrite Hc. reflexivity. }
  destruct a as [a|]; [|exact R]. cbn [print_anchor]. change (lit " &" ++ a) with (32 :: 38 :: a). cbn [app find_value]. change (32 =? 32) with true. cbv iota. change (sigil_style 38) with (@None scalar_style). cbv iota. change (38 =? 32) with false. cbv iota.
  rewrite find_skip; [exact R|]. apply name_not; [nn|exact (proj2 Ha)].
Qed.
(** ** Events *)
Lemma val_line l : read_event (lit "=VAL" ++ l) =
  match find_value (lit "=VAL" ++ l) with
  | None => RPanic
  | Some (s, raw) =>
      match unescape raw with
      | None => RPanic
      | Some v => let implicit := match get_tag (lit "=VAL" ++ l) with None => true | Some _ => false end in
                  REvent (EvScalar (get_anchor 38 (lit "=VAL" ++ l)) (get_tag (lit "=VAL" ++ l)) v implicit implicit s)
      end
  end.
Proof. reflexivity. Qed.
Lemma seq_line l : read_event (lit "+SEQ" ++ l) = REvent (EvSequenceStart (get_anchor 38 (lit "+SEQ" ++ l)) (get_tag (lit "+SEQ" ++ l)) false SeqBlock).
Proof. reflexivity. Qed.
Lemma map_line l : read_event (lit "+MAP" ++ l) = REvent (EvMappingStart (get_anchor 38 (lit "+MAP" ++ l)) (get_tag (lit "+MAP" ++ l)) false MapBlock).
Proof. reflexivity. Qed.
Lemma ali_line l : read_event (lit "=ALI" ++ l) = match get_anchor 42 (lit "=ALI" ++ l) with Some a => REvent (EvAlias a) | None => RPanic end.
Proof. reflexivity. Qed.
Lemma not_lit c (s : string) : Bool.Is_true (negb (existsb (N.eqb c) (lit s))) -> ~ In c (lit s).
Proof. intros H K. apply Is_true_eq_true, negb_true_iff in H. assert (existsb (N.eqb c) (lit s) = true); [|congruence]. apply existsb_exists. exists c. split; [exact K|apply N.eqb_refl]. Qed.
Lemma scalar_read a t v pi qi s l : all valid_name a -> print_event (EvScalar a t v pi qi s) = Some l ->
  (read_event l = REvent (noted (EvScalar a t v pi qi s)) <-> readable (EvScalar a t v pi qi s)).
Proof.
  intros Ha H. cbn [print_event] in H. destruct (style_sigil s) as [c|] eqn:Es; [|discriminate]. apply (f_equal (fun x => match x with Some x => x | None => [] end)) in H. cbv beta iota in H. subst l. destruct (sigil_of s c Es) as (_ & H92 & H38 & H60).
  pose proof (line_value (lit "=VAL") a t s c (print_escaped v) (not_lit 32 "=VAL" Logic.I) Ha Es) as LV.
  pose proof (line_anchor (lit "=VAL") a t ([32; c] ++ print_escaped v) (not_lit 38 "=VAL" Logic.I) Ha (or_intror (ex_intro _ _ eq_refl))) as GA. rewrite (line_no_amp (lit "=VAL") t c v (not_lit 38 "=VAL" Logic.I) H38) in GA.
  pose proof (line_tag (lit "=VAL") a t v [32; c] (not_lit 60 "=VAL" Logic.I) Ha) as GT. specialize (GT ltac:(cbn; intuition congruence)).
  change (print_anchor a ++ print_tag t ++ 32 :: c :: print_escaped v) with (print_anchor a ++ print_tag t ++ [32; c] ++ print_escaped v) in *.
  set (rest := print_anchor a ++ print_tag t ++ [32; c] ++ print_escaped v) in *. rewrite (val_line rest). unfold str, char in *. rewrite LV. clear LV. clearbody rest.
  set (A := get_anchor 38 _) in *. set (T := get_tag _) in *. clearbody A T. cbn [readable noted].
  destruct t as [t|].
  - destruct (find_tag (32 :: c :: print_escaped v) t) as [[S F]|[S (s' & q & F)]]; unfold str, char in *; rewrite F.
    + cbn [find_value]. change (32 =? 32) with true. cbv iota. rewrite (proj1 (sigil_of s c Es)). rewrite unescape_escape. split.
      * intros E. injection E as E1 E2 E3 E4. split; [apply GA; exact E1|]. split; [apply GT; exact E2|exact S].
      * intros (K1 & K2 & _). rewrite (proj2 GA K1), (proj2 GT K2). reflexivity.
    + split; [|intros (_ & _ & K); destruct (S K)]. destruct (unescape (q ++ 32 :: c :: print_escaped v)) as [w|] eqn:U; [|discriminate]. intros E. pose proof (unescape_more (length q) q (le_n _) c (print_escaped v) v w H92 (unescape_escape v) U) as L. cbv zeta in E. assert (w = v) as -> by congruence. lia.
  - rewrite unescape_escape. split.
    + intros E. injection E as E1 E2 E3. split; [apply GA; exact E1|apply GT; exact E2].
    + intros (K1 & K2). rewrite (proj2 GA K1), (proj2 GT K2). reflexivity.
Qed.
Lemma coll_read kind a t : ~ In 38 kind -> ~ In 60 kind -> all valid_name a ->
  (get_anchor 38 (kind ++ print_anchor a ++ print_tag t) = a <-> (a = None -> ~ In 38 (text_of t))) /\
  (get_tag (kind ++ print_anchor a ++ print_tag t) = t <-> match t with Some t => good_tag t | None => True end).
Proof.
  intros H1 H2 Ha. split.
  - pose proof (line_anchor kind a t [] H1 Ha (or_introl eq_refl)) as G. rewrite !app_nil_r in G. rewrite (line_no_amp_short kind t H1) in G. exact G.
  - pose proof (line_tag kind a t [] [] H2 Ha (fun x => match x with end)) as G. cbn [print_escaped flat_map] in G. rewrite !app_nil_r in G. rewrite G. destruct t; [tauto|]. split; [auto|]. intros _ [|] ? ?; discriminate.
Qed.
Theorem line_read d l : all valid_name (anchor_in d) -> print_event d = Some l -> (read_event l = REvent (noted d) <-> readable d).
Proof.
  intros Ha H0. pose proof H0 as H. destruct d as [e| |vd tds i|i|a|a t v pi qi s|a t i s| |a t i s|]; cbn [anchor_in] in Ha; apply (f_equal (fun x => match x with Some x => x | None => [] end)) in H; cbn [print_event] in H; try (subst l; cbn [readable noted]; split; [exact (fun _ => Logic.I)|intros _]); try reflexivity.
  - destruct i; reflexivity.
  - destruct i; reflexivity.
  - change (lit "=ALI *" ++ a) with (lit "=ALI" ++ lit " " ++ 42 :: a). rewrite ali_line. pose proof (anchor_found 42 a (lit "=ALI" ++ lit " ") []) as G. rewrite app_nil_r, <- app_assoc in G. unfold str, char in *; rewrite G; [reflexivity|cbn; intuition discriminate|exact (proj1 Ha)|apply name_not; [nn|exact (proj2 Ha)]|auto].
  - exact (scalar_read a t v pi qi s l Ha H0).
  - subst l. cbn [readable noted]. rewrite seq_line. destruct (coll_read (lit "+SEQ") a t (not_lit 38 "+SEQ" Logic.I) (not_lit 60 "+SEQ" Logic.I) Ha) as [G1 G2]. set (A := get_anchor 38 _) in *. set (T := get_tag _) in *. clearbody A T. rewrite <- G1, <- G2. split; [intros [= -> ->]; auto|intros [-> ->]; reflexivity].
  - subst l. cbn [readable noted]. rewrite map_line. destruct (coll_read (lit "+MAP") a t (not_lit 38 "+MAP" Logic.I) (not_lit 60 "+MAP" Logic.I) Ha) as [G1 G2]. set (A := get_anchor 38 _) in *. set (T := get_tag _) in *. clearbody A T. rewrite <- G1, <- G2. split; [intros [= -> ->]; auto|intros [-> ->]; reflexivity].
Qed.
