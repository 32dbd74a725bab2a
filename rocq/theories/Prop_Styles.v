(** Prop_Styles.v -- C35: the style chosen for a scalar is one in which its value can be written.

    [select_scalar_style] is what the emitter calls, in its current state, with the analysis of the
    value; Spec_Styles.v says by positions of characters what can be written in which style. *)
From Coq Require Import Bool Lia ZifyBool ZifyNat ZifyN.
From Verif Require Import Base Chars EState Emitter Spec_Styles EmitGrammar ScanFacts Api StyleFacts.
Open Scope N_scope.

Definition in_flow (s : est) : bool := negb (em_flow_level s =? 0)%Z.
Definition requested (st : scalar_style) : scalar_style := match st with SAny => SPlain | _ => st end.
Definition has_tag (tag : option (str * str)) : Prop := tag <> None.

Lemma plain_choice u (flow : bool) v : (flow && negb (sa_flow_plain_allowed (analyze_scalar u v)) || negb flow && negb (sa_block_plain_allowed (analyze_scalar u v))) = false ->
  plain_text u flow v.
Proof.
  intros H. destruct v as [|x v]; [apply plain_text_empty|]. apply analysis_plain; [discriminate|]. destruct flow; cbn [negb andb orb] in H; [rewrite orb_false_r in H|]; apply negb_false_iff, H.
Qed.

(** C35, safety: whatever was asked for and whatever the state, the chosen style is safe. *)
Theorem C35_style_is_safe s pi qi style v tag st tag' s' :
  select_scalar_style pi qi style (analyze_scalar (em_unicode s) v) tag s = (Ok (st, tag'), s') ->
  s' = s /\ safe_style (em_unicode s) (in_flow s) (em_simple_key_context s) v st /\
  (em_simple_key_context s = true -> Exists line_break v -> st = SDouble) /\
  (em_canonical s = true -> st = SDouble).
Proof.
  unfold select_scalar_style, bind, get. destruct (_ && _ && _); [discriminate|]. unfold ret. intros E. injection E as E1 _ <-. split; [reflexivity|]. subst st.
  set (u := em_unicode s). unfold choose_style. fold (in_flow s). set (flow := in_flow s). set (key := em_simple_key_context s). set (no := match tag with None => true | Some _ => false end).
  pose proof (plain_choice u flow v) as P. pose proof (analysis_single u v) as S. pose proof (analysis_block u v) as B. pose proof (analysis_multiline u v) as M. pose proof (analysis_value u v) as V.
  set (sa := analyze_scalar u v) in *. rewrite V.
  assert (Mt : Exists line_break v -> sa_multiline sa = true).
  { intros H. destruct (sa_multiline sa); [reflexivity|]. apply Exists_exists in H. destruct H as (x & Hx & Hb). destruct M as [M _]. specialize (M eq_refl). rewrite Forall_forall in M. destruct (M x Hx Hb). }
  assert (Vt : is_empty v = false -> v <> []) by (intros H ->; discriminate).
  destruct style; cbn [style_eqb]; destruct (em_canonical s); cbn [style_eqb andb orb]; destruct key; cbn [andb];
    try (destruct (sa_multiline sa) eqn:Em); cbn [style_eqb andb orb negb];
    repeat match goal with |- context [if ?b then _ else _] => destruct b eqn:?; cbn [style_eqb andb orb negb] end;
    cbn [safe_style]; rewrite ?orb_true_r, ?orb_false_r in *;
    (split; [|split; [intros ? HX; try discriminate; try (specialize (Mt HX); discriminate); reflexivity|intros; try discriminate; reflexivity]]);
    unfold plain_allowed; repeat match goal with H : (_ || _) = false |- _ => apply orb_false_iff in H; destruct H end;
    try exact I; try discriminate;
    repeat match goal with H : negb _ = false |- _ => apply negb_false_iff in H end;
    try (apply S; assumption);
    try (match goal with H : sa_block_allowed sa = true |- _ => apply B in H end; intuition congruence).
  all: try (apply S; destruct (sa_single_quoted_allowed sa); [reflexivity|discriminate]).
  all: split; [apply P; apply orb_false_iff; split; assumption|]; intros ->; 
    match goal with H : is_empty [] && _ = false |- _ => cbn [is_empty andb] in H; try discriminate H end; split; congruence.
Qed.
(** C35: a style that is possible is respected (except in canonical mode and for keys of several
    lines): the emitter does not just quote everything. *)
Theorem C35_style_is_respected s pi qi style v tag :
  em_canonical s = false -> (em_simple_key_context s = true -> Forall (fun x => ~ line_break x) v) ->
  safe_style (em_unicode s) (in_flow s) (em_simple_key_context s) v (requested style) ->
  (requested style = SPlain -> has_tag tag \/ pi = true) -> has_tag tag \/ pi = true \/ qi = true ->
  exists tag', select_scalar_style pi qi style (analyze_scalar (em_unicode s) v) tag s = (Ok (requested style, tag'), s).
Proof.
  intros Hc Hk Hs Hp Ht. unfold select_scalar_style, bind, get. set (no := match tag with None => true | Some _ => false end).
  assert (Hno : no = false <-> has_tag tag) by (unfold no, has_tag; destruct tag; intuition congruence).
  replace (no && negb pi && negb qi) with false by (destruct no, pi, qi; try reflexivity; exfalso; destruct Ht as [H|[H|H]]; [apply Hno in H|..]; discriminate).
  unfold ret. match goal with |- context [choose_style ?a ?b ?c ?d ?e] => assert (E : choose_style a b c d e = requested style) end; [|rewrite E; eexists; reflexivity].
  unfold choose_style. rewrite Hc. fold (in_flow s). set (u := em_unicode s) in *. set (flow := in_flow s) in *. set (key := em_simple_key_context s) in *.
  pose proof (analysis_single u v) as S. pose proof (analysis_block u v) as B. pose proof (analysis_multiline u v) as M. pose proof (analysis_value u v) as V.
  assert (P : plain_text u flow v -> v <> [] -> (flow && negb (sa_flow_plain_allowed (analyze_scalar u v)) || negb flow && negb (sa_block_plain_allowed (analyze_scalar u v))) = false).
  { intros H Hn. apply (analysis_plain u flow v Hn) in H. destruct flow; rewrite H; reflexivity. }
  assert (K : key && sa_multiline (analyze_scalar u v) = false).
  { destruct key; [|reflexivity]. cbn [andb]. apply M, Hk. reflexivity. }
  assert (Q : (style = SAny \/ style = SPlain) -> (flow && negb (sa_flow_plain_allowed (analyze_scalar u v)) || negb flow && negb (sa_block_plain_allowed (analyze_scalar u v))
     || is_empty v && (flow || key) || no && negb pi) = false).
  { intros Hst. assert (R : requested style = SPlain) by (destruct Hst; subst style; reflexivity). rewrite R in *. cbn [safe_style] in Hs. destruct Hs as [H1 H2].
    assert (N : no && negb pi = false) by (destruct (Hp eq_refl) as [H|H]; [apply Hno in H; rewrite H; reflexivity|rewrite H; apply andb_false_r]). rewrite N, orb_false_r.
    destruct v as [|x v].
    - destruct (H2 eq_refl) as [F1 F2]. rewrite F1, F2. reflexivity.
    - rewrite (P H1 ltac:(discriminate)). reflexivity. }
  rewrite V. destruct style; cbn [style_eqb requested safe_style] in *; rewrite K; cbn [style_eqb andb orb].
  - rewrite Q by auto. reflexivity.
  - rewrite Q by auto. reflexivity.
  - apply S in Hs. rewrite Hs. reflexivity.
  - reflexivity.
  - destruct Hs as (F1 & F2 & F3 & F4). assert (X : sa_block_allowed (analyze_scalar u v) = true) by (apply B; auto). rewrite X, F1, F2. reflexivity.
  - destruct Hs as (F1 & F2 & F3 & F4). assert (X : sa_block_allowed (analyze_scalar u v) = true) by (apply B; auto). rewrite X, F1, F2. reflexivity.
Qed.
(** C35, tags: a scalar without a tag to write is refused when neither flag allows that; otherwise
    plain style is only chosen if the plain flag allows it, and the tag [!] is added exactly when
    the style is not plain and the quoted flag does not allow the tag to be left out. *)
Theorem C35_tags s pi qi style v tag :
  match select_scalar_style pi qi style (analyze_scalar (em_unicode s) v) tag s with
  | (Ok (st, tag'), _) =>
      match tag with
      | Some t => tag' = Some t
      | None => (st = SPlain -> pi = true /\ tag' = None) /\
                (st <> SPlain -> tag' = if qi then None else Some (lit "!", []))
      end
  | (Err x, _) => tag = None /\ pi = false /\ qi = false
  | _ => False
  end.
Proof.
  unfold select_scalar_style, bind, get. destruct tag as [t|]; cbn [andb].
  - reflexivity.
  - destruct pi; cbn [negb andb].
    + set (st := choose_style _ _ _ _ _). split.
      * intros ->. cbn [style_eqb negb andb]. rewrite andb_false_r. auto.
      * intros H. destruct qi; cbn [negb andb]; [reflexivity|]. destruct st; cbn; congruence.
    + destruct qi; cbn [negb andb]; [|unfold emitter_error, fail; auto]. split; [|reflexivity]. intros H. exfalso. revert H. unfold choose_style.
      destruct style; cbn [style_eqb]; destruct (em_canonical s); cbn [style_eqb andb orb];
      repeat match goal with |- context [if ?b then _ else _] => destruct b eqn:?; cbn [style_eqb andb orb negb] end; try discriminate;
      rewrite ?orb_true_r in *; discriminate.
Qed.

(** The emitter writes the scalar with the style and tag so chosen. *)
Theorem C35_scalars_are_written_in_the_style pi qi style an sa s :
  an_scalar an = Some sa ->
  emit_scalar pi qi style an s =
  match select_scalar_style pi qi style sa (an_tag an) s with
  | (Ok (st, tag), s1) =>
      (process_anchor (an_anchor_a an) ;; process_tag tag ;; increase_indent true false ;;
       process_scalar (sa_value sa) st ;; pop_indent ;; pop_estate) s1
  | (Err x, s1) => (Err x, s1) | (Panic p, s1) => (Panic p, s1) | (Fuel, s1) => (Fuel, s1)
  end.
Proof. intros H. unfold emit_scalar. rewrite H. unfold bind at 1. destruct (select_scalar_style _ _ _ _ _ _) as [[[st tag]|x|p|] s1]; reflexivity. Qed.

(** ** Non-vacuity *)
Example demo_plain : plain_text false false (lit "a: b" ++ [120]) -> False.
Proof. intros (_ & _ & _ & _ & H & _). apply (H [97] 58 [32; 98; 120] ltac:(discriminate) eq_refl). right. left. split; [reflexivity|]. left. left. reflexivity. Qed.
Example demo_choices :
  let choose v st := fst (select_scalar_style true true st (analyze_scalar false v) None (emitter_on [])) in
  map (fun v => choose v SAny) [lit "a b"; lit "a: b"; lit "- a"; [97; 10; 98]; [97; 32; 10]; [233]; []] =
    map (fun st => Ok (st, None)) [SPlain; SSingle; SSingle; SSingle; SDouble; SDouble; SPlain] /\
  map (fun v => choose v SLiteral) [[97; 10; 32; 98; 10]; [97; 32]] = map (fun st => Ok (st, None)) [SLiteral; SDouble].
Proof. vm_compute. split; reflexivity. Qed.
Example demo_respected : plain_allowed true true true (lit "a b").
Proof.
  split; [|discriminate]. apply (analysis_plain true true); [discriminate|]. vm_compute. reflexivity.
Qed.
Print Assumptions C35_style_is_safe.
Print Assumptions C35_style_is_respected.
Print Assumptions C35_tags.

