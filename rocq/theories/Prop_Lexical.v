(** Prop_Lexical.v -- C44: the tokens account for the text.

    The lexical grammar is Spec_Lexical.v: [says d w] is the text [w] of a token [d], [gap] the text
    between two tokens, [delimited] what may stand around a token and [placed] its marks.  For every
    input that delivers a text (whatever its chunks) and any number of calls of the scanner, the
    tokens delivered so far are the tokens of a prefix of that text, cut into gaps and token texts
    with nothing left out; once STREAM-END is delivered the prefix is the whole text. *)
From Coq Require Import Lia ZifyBool ZifyNat ZifyN Bool.
From Verif Require Import Base Utf Chars State Reader Scanner Api Spec_Tokens Spec_Scanner Spec_Reader Spec_Lexical Wp ReaderFacts ReadFacts ScanFacts Utf8Facts Prop_Reader LexBase LexScan LexNames LexFetch LexQueue LexNext.
Open Scope N_scope.

(** The tokens among the results of [scanner_next], which is [None] after STREAM-END. *)
Definition tokens_of (l : list (option token)) : list token := flat_map (fun o => match o with Some t => [t] | None => [] end) l.

Lemma G_start dbg e i tx : input_text e i tx -> G [] tx [] (scanner_start dbg e i).
Proof.
  intros Hi. left. exists [], [], tx. constructor.
  - apply Cv_nil.
  - apply skips_refl.
  - constructor; [reflexivity|apply input_text_start, Hi|reflexivity|discriminate|left; apply Nat.le_0_l].
  - reflexivity.
  - split; constructor.
  - discriminate.
  - reflexivity.
Qed.
Lemma G_calls tx n : forall del s l o s', G [] tx del s -> calls_ok scanner_next n s = (l, o, s') -> exists q, covers tx 0 [] (del ++ tokens_of l) q.
Proof.
  induction n as [|n IH]; intros del s l o s' Hg E.
  - injection E as <- <- <-. cbn [tokens_of flat_map]. rewrite app_nil_r. apply (G_covers _ _ _ _ Hg).
  - cbn [calls_ok] in E.
    assert (En : scanner_next s = if stream_end_produced s then (Ok None, s) else match scan s with (Ok t, s1) => (Ok (Some t), s1) | (Err x, s1) => (Err x, s1) | (Panic x, s1) => (Panic x, s1) | (Fuel, s1) => (Fuel, s1) end).
    { unfold scanner_next, bind, get, ret. destruct (stream_end_produced s); [reflexivity|]. destruct (scan s) as [[t|x|x|] s1]; reflexivity. }
    rewrite En in E. destruct (stream_end_produced s) eqn:Es.
    + destruct (calls_ok scanner_next n s) as [[l1 o1] s1] eqn:E1. injection E as <- <- <-. apply (IH _ _ _ _ _ Hg E1).
    + pose proof (G_scan _ _ _ _ Hg Es) as P. unfold pc in P. destruct (scan s) as [[t|er|p|] s1] eqn:Esc.
      * destruct (calls_ok scanner_next n s1) as [[l1 o1] s2] eqn:E1. injection E as <- <- <-.
        destruct (IH _ _ _ _ _ P E1) as [q C]. exists q. rewrite <- app_assoc in C. exact C.
      * injection E as <- <- <-. cbn [tokens_of flat_map]. rewrite app_nil_r. apply (G_covers _ _ _ _ Hg).
      * injection E as <- <- <-. cbn [tokens_of flat_map]. rewrite app_nil_r. apply (G_covers _ _ _ _ Hg).
      * injection E as <- <- <-. cbn [tokens_of flat_map]. rewrite app_nil_r. apply (G_covers _ _ _ _ Hg).
Qed.
Lemma covers_end T l n p q t : covers T n p (l ++ [t]) q -> t_data t = TStreamEnd -> q = T.
Proof.
  intros C Et. destruct (covers_split _ _ _ _ _ _ C) as (q' & _ & C'). inversion C' as [|? ? g w r ? ? ? E1 E2 E3 E4 E5 E6]; subst. inversion E6; subst.
  rewrite Et in E3, E5. inversion E3; subst. cbn [delimited] in E5. subst r. rewrite !app_nil_r. reflexivity.
Qed.

(** The tokens delivered by any number of calls cover a prefix of the text. *)
Theorem C44_tokens_cover_the_text : forall dbg e i tx n l o s,
  input_text e i tx -> calls_ok scanner_next n (scanner_start dbg e i) = (l, o, s) ->
  exists q, covers tx 0 [] (tokens_of l) q.
Proof. intros dbg e i tx n l o s Hi E. apply (G_calls _ _ [] _ _ _ _ (G_start dbg e i tx Hi) E). Qed.
(** With STREAM-END, the whole text. *)
Theorem C44_all_of_the_text : forall dbg e i tx n l o s ts t,
  input_text e i tx -> calls_ok scanner_next n (scanner_start dbg e i) = (l, o, s) ->
  tokens_of l = ts ++ [t] -> t_data t = TStreamEnd -> covers tx 0 [] (tokens_of l) tx.
Proof.
  intros dbg e i tx n l o s ts t Hi E El Et. destruct (C44_tokens_cover_the_text dbg e i tx n l o s Hi E) as [q C].
  rewrite El in C |- *. rewrite (covers_end _ _ _ _ _ _ C Et) in C. exact C.
Qed.

(** ** The text decides
    A text is the text of one value only: two readings of a plain or quoted scalar agree. *)
Lemma app_filler (g w g' w' : str) : Forall (fun c => filler c = true) g -> Forall (fun c => filler c = true) g' -> no_filler w -> no_filler w' -> g ++ w = g' ++ w' -> g = g' /\ w = w'.
Proof.
  revert g'. induction g as [|c g IH]; intros [|c' g'] F F' N N' E.
  - auto.
  - cbn [app] in E. subst w. apply Forall_inv in F'. cbn in N. congruence.
  - cbn [app] in E. subst w'. apply Forall_inv in F. cbn in N'. congruence.
  - cbn [app] in E. injection E as -> E. destruct (IH g' (Forall_inv_tail F) (Forall_inv_tail F') N N' E) as [-> ->]. auto.
Qed.
Lemma hex_fun w v v' : hex w v -> hex w v' -> v = v'.
Proof.
  intros A. revert v'. induction A as [|w v c d A IH Hd]; intros v' B; inversion B as [E|w2 v2 c2 d2 B2 Hd2 E]; subst.
  - reflexivity.
  - exfalso. destruct w2; discriminate.
  - exfalso. destruct w; discriminate.
  - apply app_inj_tail in E. destruct E as [-> ->]. rewrite Hd in Hd2. injection Hd2 as ->. rewrite (IH _ B2). reflexivity.
Qed.
Lemma escape_head e c : escape e c -> exists x w, e = x :: w /\ breaks_line x = false.
Proof.
  intros [x y I|x n w v I L Hx R].
  - exists x, []. split; [reflexivity|]. cbn in I. repeat (destruct I as [[= <- <-]|I]; [reflexivity|]). contradiction.
  - exists x, w. split; [reflexivity|]. cbn in I. repeat (destruct I as [[= <- <-]|I]; [reflexivity|]). contradiction.
Qed.
Lemma escape_fun e c e' c' (w w' : str) : escape e c -> escape e' c' -> e ++ w = e' ++ w' -> e = e' /\ c = c' /\ w = w'.
Proof.
  intros [x y I|x n u v I L Hx R] [x' y' I'|x' n' u' v' I' L' Hx' R'] E; cbn [app] in E; injection E as <- E.
  - split; [reflexivity|]. split; [|exact E]. clear - I I'. cbn in I, I'.
    repeat (destruct I as [[= <- <-]|I]; [repeat (destruct I' as [I'|I']; [congruence|]); contradiction|]). contradiction.
  - exfalso. clear - I I'. cbn in I, I'. repeat (destruct I' as [[= <- <-]|I']; [repeat (destruct I as [I|I]; [congruence|]); contradiction|]). contradiction.
  - exfalso. clear - I I'. cbn in I, I'. repeat (destruct I as [[= <- <-]|I]; [repeat (destruct I' as [I'|I']; [congruence|]); contradiction|]). contradiction.
  - assert (n = n') as <-.
    { clear - I I'. cbn in I, I'. repeat (destruct I as [[= <- <-]|I]; [repeat (destruct I' as [I'|I']; [congruence|]); contradiction|]). contradiction. }
    assert (u = u' /\ w = w') as [<- <-].
    { clear - E L L'. subst n. revert u' L' E. induction u as [|a u IH]; intros [|b u'] L E; try discriminate; [auto|]. cbn [app] in E. injection E as -> E. injection L as L.
      destruct (IH u' L E) as [-> ->]. auto. }
    split; [reflexivity|]. split; [apply (hex_fun u); assumption|reflexivity].
Qed.
Lemma reads_inv st x u : reads st x u ->
  (x = [] /\ u = []) \/
  (exists c w v, x = c :: w /\ u = c :: v /\ filler c = false /\ (st = Single -> c <> 39) /\ (st = Double -> c <> 34 /\ c <> 92) /\ reads st w v) \/
  (exists w v, x = 39 :: 39 :: w /\ u = 39 :: v /\ st = Single /\ reads st w v) \/
  (exists c g w v, x = (c :: g) ++ w /\ u = folded (c :: g) ++ v /\ Forall (fun c => filler c = true) (c :: g) /\ no_filler w /\ reads st w v) \/
  (exists e c w v, x = 92 :: e ++ w /\ u = c :: v /\ st = Double /\ escape e c /\ reads st w v) \/
  (exists b g w v, x = 92 :: (b :: g) ++ w /\ u = tl (breaks_of (b :: g)) ++ v /\ st = Double /\ breaks_line b = true /\ Forall (fun c => filler c = true) g /\ no_filler w /\ reads st w v).
Proof.
  intros [|c w v Fc Sc Dc A|w v Es A|g w v Ng Fg Nw A|e c w v Es He A|b g w v Es Bb Fg Nw A].
  - left. auto.
  - right. left. eauto 10.
  - right. right. left. eauto 10.
  - right. right. right. left. destruct g as [|c g]; [contradiction|]. exists c, g, w, v. auto.
  - right. right. right. right. left. exists e, c, w, v. auto.
  - right. right. right. right. right. exists b, g, w, v. auto 10.
Qed.
Theorem C44_text_determines_value : forall st w v v', reads st w v -> reads st w v' -> v = v'.
Proof.
  intros st w v v' A. revert v'.
  induction A as [|c w v Fc Sc Dc A IH|w v Es A IH|g w v Ng Fg Nw A IH|e c w v Es He A IH|b g w v Es Bb Fg Nw A IH]; intros v' B; apply reads_inv in B;
    destruct B as [(E1 & ->)|[(c2 & w2 & v2 & E1 & -> & Fc2 & Sc2 & Dc2 & B2)|[(w2 & v2 & E1 & -> & Es2 & B2)|[(c2 & g2 & w2 & v2 & E1 & -> & Fg2 & Nw2 & B2)|[(e2 & c2 & w2 & v2 & E1 & -> & Es2 & He2 & B2)|(b2 & g2 & w2 & v2 & E1 & -> & Es2 & Bb2 & Fg2 & Nw2 & B2)]]]]].
  all: try discriminate E1.
  - reflexivity.
  - injection E1 as -> ->. f_equal. apply IH, B2.
  - injection E1 as -> ->. exfalso. apply (Sc Es2). reflexivity.
  - injection E1 as -> ->. exfalso. apply Forall_inv in Fg2. congruence.
  - injection E1 as -> ->. exfalso. apply (proj2 (Dc Es2)). reflexivity.
  - injection E1 as -> ->. exfalso. apply (proj2 (Dc Es2)). reflexivity.
  - injection E1 as <- <-. exfalso. apply (Sc2 Es). reflexivity.
  - injection E1 as ->. f_equal. apply IH, B2.
  - injection E1 as <- _. exfalso. apply Forall_inv in Fg2. discriminate.
  - destruct g; [contradiction|discriminate E1].
  - exfalso. destruct g as [|a g]; [contradiction|]. injection E1 as -> _. apply Forall_inv in Fg. congruence.
  - exfalso. destruct g as [|a g]; [contradiction|]. injection E1 as -> _. apply Forall_inv in Fg. discriminate.
  - destruct (app_filler _ _ _ _ Fg Fg2 Nw Nw2 E1) as [-> ->]. f_equal. apply IH, B2.
  - exfalso. destruct g as [|a g]; [contradiction|]. injection E1 as -> _. apply Forall_inv in Fg. discriminate.
  - exfalso. destruct g as [|a g]; [contradiction|]. injection E1 as -> _. apply Forall_inv in Fg. discriminate.
  - injection E1 as <- <-. exfalso. apply (proj2 (Dc2 Es)). reflexivity.
  - injection E1 as <- _. exfalso. apply Forall_inv in Fg2. discriminate.
  - injection E1 as E1. destruct (escape_fun _ _ _ _ _ _ He He2 E1) as (-> & -> & ->). f_equal. apply IH, B2.
  - exfalso. destruct (escape_head _ _ He) as (x & y & -> & Bx). injection E1 as -> _. congruence.
  - injection E1 as <- <-. exfalso. apply (proj2 (Dc2 Es)). reflexivity.
  - injection E1 as <- _. exfalso. apply Forall_inv in Fg2. discriminate.
  - exfalso. destruct (escape_head _ _ He2) as (x & y & -> & Bx). injection E1 as -> _. congruence.
  - injection E1 as -> E1. destruct (app_filler _ _ _ _ Fg Fg2 Nw Nw2 E1) as [-> ->]. f_equal. apply IH, B2.
Qed.

(** ** Non-vacuity
    A text with a directive, comments, a folded plain scalar, an escape, simple keys, a block scalar
    and flow collections, delivered one byte at a time; the scanner reads it to the end. *)
Definition lexical_demo : str :=
  lit "%YAML 1.1 # v" ++ [10] ++ lit "--- !!map" ++ [13; 10] ++ lit "a b" ++ [233] ++ lit ": [1, 'it''s', &x ""\u00e9\" ++ [10; 32] ++ lit """, {*x : y}]" ++ [10] ++
  lit "? - |2-" ++ [10; 32; 32; 32; 32; 32] ++ lit "l1" ++ [10; 10] ++ lit "  - p" ++ [10] ++ lit "    q" ++ [10] ++ lit ": # c" ++ [10] ++ lit "..." ++ [10].
Definition lexical_source : source := Mk_source [] (map (fun b => SData [b]) (encode_utf8 lexical_demo)).
Example lexical_demo_input : input_text EncAny lexical_source lexical_demo.
Proof.
  split; [repeat constructor; discriminate|]. split; [let t := eval vm_compute in lexical_demo in change lexical_demo with t; repeat apply Forall_cons; try apply Forall_nil; unfold yaml_char; lia|].
  split; [vm_compute; reflexivity|]. exists (encode_utf8 lexical_demo). split; [apply utf8_text_encode; split; [repeat constructor|reflexivity]|].
  split; [right; vm_compute; exact Logic.I|]. right. split; [vm_compute; reflexivity|vm_compute; discriminate].
Qed.
Example lexical_demo_tokens : exists l, calls_ok scanner_next 60 (scanner_start true EncAny lexical_source) = l /\ covers lexical_demo 0 [] (tokens_of (fst (fst l))) lexical_demo /\
  map t_data (tokens_of (fst (fst l))) =
  [TStreamStart Utf8; TVersionDirective 1 1; TDocumentStart; TTag (lit "!!") (lit "map"); TBlockMappingStart; TKey; TScalar (lit "a b" ++ [233]) SPlain; TValue;
   TFlowSequenceStart; TScalar (lit "1") SPlain; TFlowEntry; TScalar (lit "it's") SSingle; TFlowEntry; TAnchor (lit "x"); TScalar [233] SDouble; TFlowEntry; TFlowMappingStart; TKey; TAlias (lit "x"); TValue;
   TScalar (lit "y") SPlain; TFlowMappingEnd; TFlowSequenceEnd; TKey; TBlockSequenceStart; TBlockEntry; TScalar (lit " l1") SLiteral; TBlockEntry; TScalar (lit "p q") SPlain; TBlockEnd; TValue; TBlockEnd;
   TDocumentEnd; TStreamEnd].
Proof.
  destruct (calls_ok scanner_next 60 (scanner_start true EncAny lexical_source)) as [[l o] s] eqn:E. exists (l, o, s). split; [reflexivity|]. cbn [fst].
  assert (El : map t_data (tokens_of l) = map t_data (tokens_of (fst (fst (calls_ok scanner_next 60 (scanner_start true EncAny lexical_source)))))) by (rewrite E; reflexivity).
  match goal with |- _ /\ _ = ?r => assert (Er : map t_data (tokens_of l) = r) by (rewrite El; vm_compute; reflexivity) end. split; [|exact Er].
  destruct (exists_last (l := tokens_of l)) as (ts & t & Et); [intros Z; rewrite Z in Er; discriminate|].
  apply (C44_all_of_the_text true EncAny lexical_source lexical_demo 60 l o s ts t lexical_demo_input E Et).
  rewrite Et, map_app in Er. cbn [map] in Er. apply (f_equal (fun x => last x TKey)) in Er. cbv beta in Er. rewrite last_last in Er. exact Er.
Qed.
Print Assumptions C44_tokens_cover_the_text.
Print Assumptions C44_all_of_the_text.
Print Assumptions C44_text_determines_value.
