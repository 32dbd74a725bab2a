(** ToolRun.v -- what the parser program prints, and its lines. *)
From Coq Require Import Lia ZifyBool ZifyNat ZifyN Bool.
From Verif Require Import Base Chars State Reader Scanner Parser EState Emitter Document Api Spec_Tokens Spec_Scanner Spec_Parser Prop_Parser Spec_Events EventFacts Spec_EmitNames Spec_Notation Tools NotationFacts NotationLine LoadSession.
Open Scope N_scope.

Lemma gstep_end g d g' : gstep g d = Some g' -> g' = GEnd <-> d = EvStreamEnd.
Proof.
  intros H. unfold gstep in H. split.
  - intros ->. destruct g, d; try discriminate H; try reflexivity; repeat (match type of H with context [match ?x with _ => _ end] => destruct x end; try discriminate H; try reflexivity).
  - intros ->. destruct g; try discriminate H; try (injection H as <-; reflexivity); repeat (match type of H with context [match ?x with _ => _ end] => destruct x end; try discriminate H; try (injection H as <-; reflexivity)).
Qed.
Lemma grun_end_nil l : grun GEnd l <> None -> l = [].
Proof. destruct l as [|d l]; [reflexivity|]. cbn. destruct d; congruence. Qed.
(** Lines and their ends. *)
Definition ended (ls : list str) : str := flat_map (fun l => l ++ [10]) ls.
Definition printed (ds : list event_data) (ls : list str) : Prop := map print_event ds = map Some ls.
Lemma print_some d : print_event d <> None <-> match d with EvScalar _ _ _ _ _ SAny => False | _ => True end.
Proof. destruct d as [| | | | |a t v pi qi s| | | |]; cbn; try (split; [auto|discriminate]). destruct s; cbn; split; try (intros; exact Logic.I); try discriminate; try tauto; intros K; destruct (K eq_refl). Qed.
Lemma tool_prints n : forall p g os p', calls parser_next n p = (os, p') -> Forall succeeded os -> g <> GEnd -> grun g (map e_data (events_of os)) <> None ->
  Forall (fun d => print_event d <> None) (map e_data (events_of os)) ->
  exists ls, printed (map e_data (events_of os)) ls /\
  (existsb is_stream_end_event (events_of os) = true -> forall m, parser_tool (n + m) p = (ended ls, PDone)) /\
  (length (events_of os) = n -> existsb is_stream_end_event (events_of os) = false -> forall m, parser_tool (n + m) p = let (o, r) := parser_tool m p' in (ended ls ++ o, r)).
Proof.
  induction n as [|n IH]; intros p g os p' H Hr Hg Hgr Hp; cbn [calls] in H.
  - injection H as <- <-. exists []. split; [reflexivity|]. split; [discriminate|]. intros _ _ m. cbn. destruct (parser_tool m p). reflexivity.
  - destruct (parser_next p) as [x p1] eqn:E. destruct (calls parser_next n p1) as [os1 p2] eqn:Ec. injection H as <- <-.
    assert (Hr1 := Forall_inv Hr). apply Forall_inv_tail in Hr.
    destruct (at_end p) eqn:Ha.
    + unfold parser_next, bind, get in E. rewrite Ha in E. injection E as <- <-. cbn [events_of flat_map event_of app] in *. fold (events_of os1) in *.
      assert (Z : events_of os1 = []).
      { clear -Ec Ha Hr. revert os1 p2 Ec Hr. induction n as [|n IH]; intros os1 p2 Ec Hr; cbn [calls] in Ec; [injection Ec as <- _; reflexivity|].
        unfold parser_next at 1, bind, get in Ec. rewrite Ha in Ec. cbn in Ec. destruct (calls parser_next n p) as [o q] eqn:E. injection Ec as <- <-. cbn. exact (IH _ _ eq_refl (Forall_inv_tail Hr)). }
      rewrite Z. exists []. split; [reflexivity|]. split; [discriminate|]. cbn. lia.
    + rewrite (next_parse p Ha) in E. destruct (parse p) as [[ev|y|y|] q] eqn:Ep; injection E as <- <-; try destruct Hr1.
      cbn [events_of flat_map event_of app] in *. fold (events_of os1) in *. cbn [map] in *. cbn [grun] in Hgr. destruct (gstep g (e_data ev)) as [g1|] eqn:Eg; [|congruence].
      pose proof (Forall_inv Hp) as Hp0. apply Forall_inv_tail in Hp. cbv beta in Hp0. destruct (print_event (e_data ev)) as [l|] eqn:El; [|congruence]. clear Hp0.
      cbn [existsb]. destruct (is_stream_end_event ev) eqn:Ev; cbn [orb].
      * assert (Ed : e_data ev = EvStreamEnd) by (unfold is_stream_end_event in Ev; destruct (e_data ev); congruence).
        rewrite (proj2 (gstep_end _ _ _ Eg) Ed) in *. apply grun_end_nil in Hgr. destruct (events_of os1); [|discriminate]. cbn [map]. exists [l].
        split; [unfold printed; cbn [map]; rewrite El; reflexivity|]. split; [|discriminate]. intros _ m. cbn [plus parser_tool]. rewrite Ep, El, Ed. cbn. rewrite app_nil_r. reflexivity.
      * assert (Ed : e_data ev <> EvStreamEnd) by (unfold is_stream_end_event in Ev; destruct (e_data ev); congruence).
        destruct (IH q g1 os1 p2 Ec Hr) as (ls & I1 & I2 & I3); [intros ->; apply Ed, (proj1 (gstep_end _ _ _ Eg) eq_refl)|exact Hgr|exact Hp|].
        exists (l :: ls). split; [unfold printed in *; cbn [map]; rewrite El, I1; reflexivity|].
        assert (St : forall m, parser_tool (S n + m) p = let (o, r) := parser_tool (n + m) q in (l ++ 10 :: o, r)). { intros m. cbn [plus parser_tool]. rewrite Ep, El. destruct (e_data ev); try reflexivity. congruence. }
        split.
        -- intros He m. rewrite St, (I2 He m). cbn [ended flat_map]. rewrite <- app_assoc. reflexivity.
        -- cbn [length]. intros Hl He m. rewrite St, (I3 ltac:(lia) He m). destruct (parser_tool m p2) as [o r]. cbn [ended flat_map]. rewrite <- !app_assoc. reflexivity.
Qed.
(** ** Reading the lines *)
Lemma lines_of l : forall cur rest, ~ In 10 l -> input_lines cur (l ++ 10 :: rest) = (cur ++ l) :: input_lines [] rest.
Proof.
  induction l as [|x l IH]; intros cur rest H; cbn [app input_lines].
  - change (10 =? 10) with true. cbv iota. rewrite app_nil_r. reflexivity.
  - destruct (N.eqb_spec x 10) as [->|_]; [destruct H; left; reflexivity|]. rewrite IH by (intros K; apply H; right; exact K). rewrite <- app_assoc. reflexivity.
Qed.
Lemma ended_lines ls : Forall (fun l => ~ In 10 l) ls -> input_lines [] (ended ls) = ls.
Proof. induction 1 as [|l ls H _ IH]; [reflexivity|]. unfold ended in *. cbn [flat_map]. rewrite <- app_assoc. cbn [app]. rewrite lines_of by exact H. rewrite IH. reflexivity. Qed.
(** The number of lines is that of the ends. *)
Fixpoint ends_in (l : str) : nat := match l with [] => 0 | x :: r => (if (x =? 10)%N then 1 else 0) + ends_in r end%nat.
Lemma ends_app a b : ends_in (a ++ b) = (ends_in a + ends_in b)%nat.
Proof. induction a as [|x a IH]; [reflexivity|]. cbn [app ends_in]. rewrite IH. lia. Qed.
Lemma input_count l : forall cur, (ends_in l <= length (input_lines cur l))%nat.
Proof.
  induction l as [|x l IH]; intros cur; cbn [ends_in input_lines]; [lia|]. destruct (x =? 10); cbn [length plus]; [specialize (IH []); lia|apply IH].
Qed.
Lemma no_ends l : ends_in l = 0%nat <-> ~ In 10 l.
Proof. induction l as [|x l IH]; cbn [ends_in In]; [tauto|]. destruct (N.eqb_spec x 10); split; intros H; try lia; try tauto. Qed.
Lemma ended_count ls : ends_in (ended ls) = (length ls + list_sum (map ends_in ls))%nat.
Proof. induction ls as [|l ls IH]; [reflexivity|]. unfold ended in *. cbn [flat_map length map list_sum fold_right]. rewrite !ends_app, IH. unfold list_sum. cbn [ends_in]. change (10 =? 10) with true. cbv iota. lia. Qed.
Lemma few_lines ls : length (input_lines [] (ended ls)) = length ls -> Forall (fun l => ~ In 10 l) ls.
Proof.
  intros H. pose proof (input_count (ended ls) []) as C. rewrite ended_count in C. assert (Z : list_sum (map ends_in ls) = 0%nat) by lia. clear H C.
  induction ls as [|l ls IH]; [constructor|]. cbn [map list_sum fold_right] in Z. fold (list_sum (map ends_in ls)) in Z. constructor; [apply no_ends; lia|apply IH; lia].
Qed.
Lemma line_ends d l : all valid_name (anchor_in d) -> print_event d = Some l -> ~ In 10 l <-> on_one_line d.
Proof.
  intros Ha H0. pose proof H0 as H. unfold on_one_line. assert (P10 : forall a, all valid_name a -> ~ In 10 (print_anchor a)) by (intros a A; apply print_anchor_no; [exact A|nn|discriminate|discriminate]).
  assert (T10 : forall t, In 10 (print_tag t) <-> In 10 (text_of t)).
  { intros [t|]; [|tauto]. cbn. rewrite in_app_iff. cbn. intuition discriminate. }
  apply (f_equal (fun x => match x with Some x => x | None => [] end)) in H. destruct d as [e| |vd tds i|i|a|a t v pi qi s|a t i s| |a t i s|]; cbn [print_event anchor_in tag_in] in *.
  - subst l. cbn. intuition discriminate.
  - subst l. cbn. intuition discriminate.
  - subst l. destruct i; cbn; intuition discriminate.
  - subst l. destruct i; cbn; intuition discriminate.
  - subst l. cbn [text_of]. split; [intros _ []|]. intros _ K. apply in_app_iff in K. destruct K as [K|K]; [cbn in K; intuition discriminate|]. revert K. apply name_not; [nn|exact (proj2 Ha)].
  - (destruct s; [discriminate H0|..]); cbn [style_sigil] in H; subst l;
    rewrite !in_app_iff, T10; specialize (P10 a Ha); pose proof (escape_no10 v) as E10; (split; [intros K; tauto|]); intros K [L|[L|[L|[L|L]]]]; try tauto; cbn in L; intuition discriminate.
  - subst l. rewrite !in_app_iff, T10. specialize (P10 a Ha). split; [intros K; tauto|]. intros K [L|[L|L]]; try tauto. cbn in L. intuition discriminate.
  - subst l. cbn. intuition discriminate.
  - subst l. rewrite !in_app_iff, T10. specialize (P10 a Ha). split; [intros K; tauto|]. intros K [L|[L|L]]; try tauto. cbn in L. intuition discriminate.
  - subst l. cbn. intuition discriminate.
Qed.
