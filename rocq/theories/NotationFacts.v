(** NotationFacts.v -- the lines printed for events, read again. *)
From Coq Require Import Lia ZifyBool ZifyNat ZifyN Bool.
From Verif Require Import Base Chars State Reader Scanner Parser EState Emitter Spec_EmitNames Spec_Notation Tools.
Open Scope N_scope.

Lemma split_none c l : ~ In c l -> split_once c l = None.
Proof. induction l as [|x r IH]; [reflexivity|]. cbn. intros H. destruct (N.eqb_spec x c) as [->|_]; [destruct H; auto|]. rewrite IH by tauto. reflexivity. Qed.
Lemma split_some c a b : ~ In c a -> split_once c (a ++ c :: b) = Some (a, b).
Proof. induction a as [|x r IH]; cbn; [rewrite N.eqb_refl; reflexivity|]. intros H. destruct (N.eqb_spec x c) as [->|_]; [destruct H; auto|]. rewrite IH by tauto. reflexivity. Qed.
Lemma split_skip c a l : ~ In c a -> split_once c (a ++ l) = match split_once c l with Some (x, y) => Some (a ++ x, y) | None => None end.
Proof.
  induction a as [|x r IH]; cbn; [destruct (split_once c l) as [[x y]|]; reflexivity|]. intros H. destruct (N.eqb_spec x c) as [->|_]; [destruct H; auto|]. rewrite IH by tauto. destruct (split_once c l) as [[y z]|]; reflexivity.
Qed.
Lemma split_inv c l : match split_once c l with Some (a, b) => l = a ++ c :: b /\ ~ In c a | None => ~ In c l end.
Proof.
  induction l as [|x r IH]; cbn; [auto|]. destruct (N.eqb_spec x c) as [->|Hn]; [auto|]. destruct (split_once c r) as [[a b]|].
  - destruct IH as [-> H]. split; [reflexivity|]. cbn. intros [->|K]; tauto.
  - cbn. intros [->|K]; tauto.
Qed.
Lemma first_split (c : char) a b x y : ~ In c a -> a ++ c :: b = x ++ c :: y -> (x = a /\ y = b) \/ exists z, x = a ++ c :: z /\ b = z ++ c :: y.
Proof.
  revert x. induction a as [|w a IH]; intros x S E; destruct x as [|u x]; cbn in E.
  - injection E; auto.
  - injection E; intros E2 <-. right. exists x. auto.
  - injection E; intros _ ->. destruct S. left. reflexivity.
  - injection E; intros E2 <-. destruct (IH x) as [[-> ->]|(z & -> & ->)]; [intros K; apply S; right; exact K|exact E2|left; auto|right; exists z; auto].
Qed.
(** ** Escapes *)
Lemma escape_in c v : c <> 92 -> c <> 48 -> c <> 98 -> c <> 110 -> c <> 114 -> c <> 116 -> c <> 0 -> c <> 8 -> c <> 10 -> c <> 13 -> c <> 9 -> In c (print_escaped v) <-> In c v.
Proof.
  intros. unfold print_escaped. rewrite in_flat_map. split.
  - intros (x & Hx & H'). assert (x = c) as <-; [|exact Hx]. revert H'. unfold escape_char. repeat match goal with |- context [if ?a =? ?b then _ else _] => destruct (N.eqb_spec a b) end; cbn; intuition congruence.
  - intros Hc. exists c. split; [exact Hc|]. unfold escape_char. repeat match goal with |- context [if ?a =? ?b then _ else _] => destruct (N.eqb_spec a b) end; try congruence. left. reflexivity.
Qed.
Lemma escape_no10 v : ~ In 10 (print_escaped v).
Proof.
  unfold print_escaped. rewrite in_flat_map. intros (x & _ & H). revert H. unfold escape_char. repeat match goal with |- context [if ?a =? ?b then _ else _] => destruct (N.eqb_spec a b) end; cbn; try (intuition discriminate).
Qed.
Lemma unescape_escape v : unescape (print_escaped v) = Some v.
Proof.
  induction v as [|x v IH]; [reflexivity|]. unfold print_escaped in *. cbn [flat_map]. unfold escape_char at 1.
  repeat match goal with |- context [if ?a =? ?b then _ else _] => destruct (N.eqb_spec a b); [subst x; cbn [app unescape unescape_char N.eqb Pos.eqb]; rewrite IH; reflexivity|] end.
  cbn [app unescape]. rewrite (proj2 (N.eqb_neq x 92)) by assumption. rewrite IH. reflexivity.
Qed.
Lemma escape_app a b : print_escaped (a ++ b) = print_escaped a ++ print_escaped b.
Proof. apply flat_map_app. Qed.
Lemma escape_nil v : print_escaped v = [] -> v = [].
Proof. intros H. pose proof (unescape_escape v) as K. rewrite H in K. cbn in K. congruence. Qed.
Lemma unescape_more k : forall q, (length q <= k)%nat -> forall c e v w, c <> 92 -> unescape e = Some v -> unescape (q ++ 32 :: c :: e) = Some w -> (length v < length w)%nat.
Proof.
  induction k as [|k IH]; intros q Hq c e v w Hc He H.
  - destruct q; [|cbn in Hq; lia]. cbn [app unescape] in H. change (32 =? 92) with false in H. cbv iota in H. rewrite (proj2 (N.eqb_neq c 92) Hc), He in H. injection H as <-. cbn. lia.
  - destruct q as [|x q].
    + cbn [app unescape] in H. change (32 =? 92) with false in H. cbv iota in H. rewrite (proj2 (N.eqb_neq c 92) Hc), He in H. injection H as <-. cbn. lia.
    + cbn [app unescape] in H. cbn [length] in Hq. destruct (x =? 92).
      * destruct q as [|y q]; cbn [app] in H; [discriminate H|]. cbn [length] in Hq. destruct (unescape_char y); [|discriminate]. destruct (unescape (q ++ 32 :: c :: e)) as [w'|] eqn:E; [|discriminate]. injection H as <-. specialize (IH q ltac:(lia) c e v w' Hc He E). cbn. lia.
      * destruct (unescape (q ++ 32 :: c :: e)) as [w'|] eqn:E; [|discriminate]. injection H as <-. specialize (IH q ltac:(lia) c e v w' Hc He E). cbn. lia.
Qed.
(** ** Values *)
Lemma find_skip w l : ~ In 32 w -> find_value (w ++ l) = find_value l.
Proof. induction w as [|x w IH]; [reflexivity|]. cbn [app find_value]. intros H. destruct (N.eqb_spec x 32) as [->|_]; [destruct H; left; reflexivity|]. apply IH. intros K. apply H. right. exact K. Qed.
Lemma sigil_spec c : match sigil_style c with Some _ => style_char c | None => ~ style_char c end.
Proof. unfold sigil_style, style_char. repeat match goal with |- context [if ?a =? ?b then _ else _] => destruct (N.eqb_spec a b); [auto 10|] end. tauto. Qed.
Lemma sigil_of s c : style_sigil s = Some c -> sigil_style c = Some s /\ c <> 92 /\ c <> 38 /\ c <> 60.
Proof. destruct s; intros [= <-]; repeat split; discriminate. Qed.
Lemma find_tag rest t : (spaced_tag t /\ find_value (t ++ 62 :: rest) = find_value rest) \/ (~ spaced_tag t /\ exists s q, find_value (t ++ 62 :: rest) = Some (s, q ++ rest)).
Proof.
  induction t as [|x t IH].
  - left. split; [split; [intros x; destruct x; discriminate|intros x; destruct x; discriminate]|]. reflexivity.
  - assert (C : spaced_tag (x :: t) <-> (x = 32 -> match t with [] => False | c :: _ => ~ style_char c end) /\ spaced_tag t).
    { split.
      - intros [A B]. split; [intros ->; destruct t as [|c t]; [exact (B [] eq_refl)|exact (A [] c t eq_refl)]|]. split; [intros y c z ->; exact (A (x :: y) c z eq_refl)|intros y ->; exact (B (x :: y) eq_refl)].
      - intros [A [B1 B2]]. split.
        + intros x' c z E. destruct x' as [|x' y]; cbn in E; injection E; [intros -> ->; exact (A eq_refl)|intros -> ->; exact (B1 _ _ _ eq_refl)].
        + intros x' E. destruct x' as [|x' y]; cbn in E; injection E; [intros -> ->; exact (A eq_refl)|intros -> ->; exact (B2 _ eq_refl)]. }
    rewrite C. clear C. cbn [app find_value]. destruct (N.eqb_spec x 32) as [->|Hn].
    + destruct t as [|c t].
      * right. split; [intros [A _]; exact (A eq_refl)|]. cbn [app]. exists SFolded, []. reflexivity.
      * cbn [app] in *. pose proof (sigil_spec c) as S. destruct (sigil_style c) as [s|].
        -- right. split; [intros [A _]; exact (A eq_refl S)|]. exists s, (t ++ [62]). rewrite <- app_assoc. reflexivity.
        -- destruct IH as [[I1 I2]|[I1 I2]]; [left|right]; (split; [tauto|exact I2]).
    + destruct IH as [[I1 I2]|[I1 I2]]; [left|right]; (split; [tauto|exact I2]).
Qed.
Lemma name_not c a : ~ name_char c -> Forall name_char a -> ~ In c a.
Proof. intros H Ha K. rewrite Forall_forall in Ha. exact (H (Ha c K)). Qed.
Ltac nn := unfold name_char; lia.
(** ** Anchors *)
Lemma anchor_found sigil a pre rest : ~ In sigil pre -> a <> [] -> ~ In 32 a -> rest = [] \/ (exists r, rest = 32 :: r) -> get_anchor sigil (pre ++ sigil :: a ++ rest) = Some a.
Proof.
  intros H Hne Ha Hr. unfold get_anchor. rewrite split_some by exact H. destruct Hr as [->|(r & ->)].
  - rewrite app_nil_r, split_none by exact Ha. destruct a; [congruence|reflexivity].
  - rewrite split_some by exact Ha. reflexivity.
Qed.
Lemma anchor_none l : get_anchor 38 l = None <-> no_ampersand l.
Proof.
  unfold get_anchor, no_ampersand. pose proof (split_inv 38 l) as S. destruct (split_once 38 l) as [[a b]|].
  - destruct S as [-> S]. split.
    + intros H x y E. destruct (split_once 32 b) as [[u w]|]; [discriminate|]. destruct b; [|discriminate].
      destruct (first_split 38 a [] x y S E) as [[_ ->]|(z & _ & K')]; [reflexivity|destruct z; discriminate].
    + intros H. rewrite (H a b eq_refl). reflexivity.
  - split; [|reflexivity]. intros _ x y ->. destruct S. apply in_app_iff. right. left. reflexivity.
Qed.
(** ** Tags *)
Lemma tag_found pre t rest : ~ In 60 pre -> get_tag (pre ++ 60 :: t ++ 62 :: rest) = Some t <-> good_tag t.
Proof.
  intros H. unfold get_tag, good_tag. rewrite split_some by exact H. split.
  - pose proof (split_inv 62 (t ++ 62 :: rest)) as S. destruct (split_once 62 (t ++ 62 :: rest)) as [[a b]|]; [|discriminate]. intros [= ->]. apply S.
  - intros Ht. rewrite split_some by exact Ht. reflexivity.
Qed.
Lemma tag_none pre v : ~ In 60 pre -> get_tag (pre ++ print_escaped v) = None <-> no_angles v.
Proof.
  intros H. unfold get_tag. rewrite split_skip by exact H. pose proof (split_inv 60 v) as S. destruct (split_once 60 v) as [[a b]|].
  - destruct S as [-> S]. rewrite escape_app. change (print_escaped (60 :: b)) with (60 :: print_escaped b). rewrite split_some by (rewrite escape_in by discriminate; exact S).
    pose proof (split_inv 62 b) as T. destruct (split_once 62 b) as [[c d]|].
    + destruct T as [-> T]. rewrite escape_app. change (print_escaped (62 :: d)) with (62 :: print_escaped d). rewrite split_some by (rewrite escape_in by discriminate; exact T).
      split; [discriminate|]. intros K. destruct (K a c d eq_refl).
    + rewrite split_none by (rewrite escape_in by discriminate; exact T). split; [|reflexivity]. intros _ x y z E. apply T.
      destruct (first_split 60 a b x _ S E) as [[_ <-]|(w & _ & ->)]; [apply in_app_iff; right; left; reflexivity|]. apply in_app_iff. right. right. apply in_app_iff. right. left. reflexivity.
  - rewrite split_none by (rewrite escape_in by discriminate; exact S). split; [|reflexivity]. intros _ x y z ->. apply S. apply in_app_iff. right. left. reflexivity.
Qed.
Lemma print_anchor_no c a : all valid_name a -> ~ name_char c -> c <> 32 -> c <> 38 -> ~ In c (print_anchor a).
Proof. intros Ha H1 H2 H3. destruct a as [a|]; [|intros []]. cbn. intros [K|[K|K]]; [congruence|congruence|]. exact (name_not c a H1 (proj2 Ha) K). Qed.
Lemma no_amp_app pre v : ~ In 38 pre -> no_ampersand (pre ++ print_escaped v) <-> no_ampersand v.
Proof.
  intros H. rewrite <- anchor_none. unfold get_anchor. rewrite split_skip by exact H. pose proof (split_inv 38 v) as S. destruct (split_once 38 v) as [[a b]|].
  - destruct S as [-> S]. rewrite escape_app. change (print_escaped (38 :: b)) with (38 :: print_escaped b). rewrite split_some by (rewrite escape_in by discriminate; exact S). split.
    + intros K. destruct (split_once 32 (print_escaped b)) as [[? ?]|]; [discriminate|]. destruct (print_escaped b) eqn:E; [|discriminate]. apply escape_nil in E. subst b. intros x y E.
      destruct (first_split 38 a [] x y S E) as [[_ ->]|(z & _ & K')]; [reflexivity|destruct z; discriminate].
    + intros K. rewrite (K a b eq_refl). reflexivity.
  - rewrite split_none by (rewrite escape_in by discriminate; exact S). split; [|reflexivity]. intros _ x y ->. destruct S. apply in_app_iff. right. left. reflexivity.
Qed.
Lemma no_amp_in x y : y <> [] -> no_ampersand (x ++ y) -> ~ In 38 x.
Proof. intros Hy H K. apply in_split in K. destruct K as (a & b & ->). specialize (H a (b ++ y)). rewrite <- app_assoc in H. specialize (H eq_refl). destruct b; [exact (Hy H)|discriminate H]. Qed.
Lemma no_amp_none l : ~ In 38 l -> no_ampersand l.
Proof. intros H x y ->. destruct H. apply in_app_iff. right. left. reflexivity. Qed.
