(** EventFacts.v -- an automaton for the event grammar of Spec_Events.v, used in the proofs. *)
From Verif Require Import Base Spec_Events.

(** What is open in a document: [FRoot] the root node is missing, [FDone] it is complete, [FSeq] a
    sequence, [FKey]/[FVal] a mapping waiting for a key (or its end)/a value. *)
Inductive frame := FRoot | FDone | FSeq | FKey | FVal.
Inductive gstate := GStart | GDocs | GDoc (ds : list tag_directive) (fs : list frame) | GEnd.

(** The frames after a node. *)
Definition after (fs : list frame) : option (list frame) :=
  match fs with
  | FRoot :: r => Some (FDone :: r)
  | FSeq :: r => Some (FSeq :: r)
  | FKey :: r => Some (FVal :: r)
  | FVal :: r => Some (FKey :: r)
  | _ => None
  end.
Definition gstep (g : gstate) (d : event_data) : option gstate :=
  match g, d with
  | GStart, EvStreamStart _ => Some GDocs
  | GDocs, EvDocumentStart _ tds _ => Some (GDoc tds [FRoot])
  | GDocs, EvStreamEnd => Some GEnd
  | GDoc ds [FDone], EvDocumentEnd _ => Some GDocs
  | GDoc ds fs, (EvAlias _ | EvScalar _ _ _ _ _ _) => option_map (GDoc ds) (after fs)
  | GDoc ds fs, EvSequenceStart _ _ _ _ => option_map (fun l => GDoc ds (FSeq :: l)) (after fs)
  | GDoc ds fs, EvMappingStart _ _ _ _ => option_map (fun l => GDoc ds (FKey :: l)) (after fs)
  | GDoc ds (FSeq :: r), EvSequenceEnd => Some (GDoc ds r)
  | GDoc ds (FKey :: r), EvMappingEnd => Some (GDoc ds r)
  | _, _ => None
  end.
Fixpoint grun (g : gstate) (l : list event_data) : option gstate :=
  match l with
  | [] => Some g
  | d :: r => match gstep g d with Some g' => grun g' r | None => None end
  end.
Lemma grun_app g l r : grun g (l ++ r) = match grun g l with Some g' => grun g' r | None => None end.
Proof. revert g. induction l as [|d l IH]; intros g; cbn [app grun]; [reflexivity|]. destruct (gstep g d); auto. Qed.

(** The language of an automaton state. *)
Inductive tail_events : list frame -> list event_data -> Prop :=
| TDone j l : documents_events l -> tail_events [FDone] (EvDocumentEnd j :: l ++ [EvStreamEnd])
| TRoot n l : node_events n -> tail_events [FDone] l -> tail_events [FRoot] (n ++ l)
| TSeq n l fs : nodes_events n -> tail_events fs l -> tail_events (FSeq :: fs) (n ++ EvSequenceEnd :: l)
| TKey n l fs : pairs_events n -> tail_events fs l -> tail_events (FKey :: fs) (n ++ EvMappingEnd :: l)
| TVal v n l fs : node_events v -> pairs_events n -> tail_events fs l -> tail_events (FVal :: fs) (v ++ n ++ EvMappingEnd :: l).
Definition accepts (g : gstate) (l : list event_data) : Prop :=
  match g with
  | GStart => stream_events l
  | GDocs => exists docs, documents_events docs /\ l = docs ++ [EvStreamEnd]
  | GDoc _ fs => tail_events fs l
  | GEnd => l = []
  end.

Lemma tail_after fs l fs' : after fs = Some fs' -> tail_events fs' l -> forall n, node_events n -> tail_events fs (n ++ l).
Proof.
  intros Ha Ht n Hn. destruct fs as [|[] r]; try discriminate Ha; injection Ha as <-.
  - destruct r; [|inversion Ht; fail]. apply TRoot; assumption.
  - inversion Ht; subst. rewrite app_assoc. apply TSeq; [|assumption]. apply NCons; assumption.
  - inversion Ht; subst. rewrite !app_assoc. apply TKey; [|assumption]. rewrite <- app_assoc. apply PCons; assumption.
  - inversion Ht; subst. apply TVal; assumption.
Qed.
Lemma accepts_step g d g' l : gstep g d = Some g' -> accepts g' l -> accepts g (d :: l).
Proof.
  intros Hs Ha. destruct g as [| |ds fs|].
  - destruct d; try discriminate Hs. injection Hs as <-. destruct Ha as (docs & Hd & ->). exists enc, docs. auto.
  - destruct d; try discriminate Hs; injection Hs as <-.
    + cbn in Ha. subst l. exists []. split; [constructor|reflexivity].
    + cbn in Ha. inversion Ha as [|n l0 Hn Ht| | |]; subst. inversion Ht as [j l1 Hd| | | |]; subst.
      exists (EvDocumentStart vd tds implicit :: n ++ EvDocumentEnd j :: l1). split; [apply DCons; assumption|].
      cbn [app]. rewrite <- app_assoc. reflexivity.
  - assert (Hn : forall n r, node_events n -> forall fs', after fs = Some fs' -> tail_events fs' r -> accepts (GDoc ds fs) (n ++ r)).
    { intros n r Hn fs' H1 H2. cbn. eapply tail_after; eassumption. }
    assert (Hnode : forall fs', option_map (GDoc ds) (after fs) = Some g' -> after fs = Some fs' -> tail_events fs' l).
    { intros fs' H1 H2. rewrite H2 in H1. injection H1 as <-. exact Ha. }
    destruct d.
    + destruct fs as [|[] [|]]; discriminate.
    + destruct fs as [|[] [|]]; discriminate.
    + destruct fs as [|[] [|]]; discriminate.
    + destruct fs as [|[] [|]]; try discriminate. injection Hs as <-. destruct Ha as (docs & Hd & ->). cbn. constructor. exact Hd.
    + assert (Hs' : option_map (GDoc ds) (after fs) = Some g') by (destruct fs as [|[] [|]]; exact Hs).
      destruct (after fs) as [fs'|] eqn:Ef; [|discriminate]. apply (Hn [EvAlias anchor] l (NAlias _) fs' eq_refl).
      apply Hnode; auto.
    + assert (Hs' : option_map (GDoc ds) (after fs) = Some g') by (destruct fs as [|[] [|]]; exact Hs).
      destruct (after fs) as [fs'|] eqn:Ef; [|discriminate].
      apply (Hn [EvScalar anchor tag value plain_implicit quoted_implicit style] l (NScalar _ _ _ _ _ _) fs' eq_refl).
      apply Hnode; auto.
    + assert (Hs' : option_map (fun x => GDoc ds (FSeq :: x)) (after fs) = Some g') by (destruct fs as [|[] [|]]; exact Hs).
      destruct (after fs) as [fs'|] eqn:Ef; [|discriminate]. injection Hs' as <-. cbn in Ha. inversion Ha; subst.
      match goal with |- accepts _ (?h :: ?n ++ ?x :: ?r) => replace (h :: n ++ x :: r) with ((h :: n ++ [x]) ++ r) by (cbn [app]; rewrite <- app_assoc; reflexivity) end.
      eapply Hn; [constructor; eassumption|reflexivity|assumption].
    + destruct fs as [|[] [|]]; try discriminate; injection Hs as <-; apply (TSeq []); try constructor; exact Ha.
    + assert (Hs' : option_map (fun x => GDoc ds (FKey :: x)) (after fs) = Some g') by (destruct fs as [|[] [|]]; exact Hs).
      destruct (after fs) as [fs'|] eqn:Ef; [|discriminate]. injection Hs' as <-. cbn in Ha. inversion Ha; subst.
      match goal with |- accepts _ (?h :: ?n ++ ?x :: ?r) => replace (h :: n ++ x :: r) with ((h :: n ++ [x]) ++ r) by (cbn [app]; rewrite <- app_assoc; reflexivity) end.
      eapply Hn; [constructor; eassumption|reflexivity|assumption].
    + destruct fs as [|[] [|]]; try discriminate; injection Hs as <-; apply (TKey []); try constructor; exact Ha.
  - discriminate.
Qed.
Lemma accepts_run l : forall g g' r, grun g l = Some g' -> accepts g' r -> accepts g (l ++ r).
Proof.
  induction l as [|d l IH]; intros g g' r H Ha; cbn [grun app] in *; [injection H as <-; exact Ha|].
  destruct (gstep g d) as [g1|] eqn:E; [|discriminate]. eapply accepts_step; [exact E|]. eapply IH; eassumption.
Qed.

(** A frame stack that some continuation closes. *)
Fixpoint stack_ok (fs : list frame) : Prop :=
  match fs with
  | [FRoot] => True
  | FDone :: r => r = []
  | FSeq :: r | FKey :: r | FVal :: r => stack_ok r /\ r <> [FRoot]
  | _ => False
  end.
Lemma tail_exists fs : stack_ok fs -> exists l, tail_events fs l.
Proof.
  induction fs as [|f r IH]; [contradiction|]. destruct f; cbn [stack_ok].
  - destruct r; [|contradiction]. intros _. exists ([EvAlias []] ++ EvDocumentEnd true :: [] ++ [EvStreamEnd]).
    apply TRoot; [constructor|]. apply TDone. constructor.
  - intros ->. exists (EvDocumentEnd true :: [] ++ [EvStreamEnd]). constructor. constructor.
  - intros [H _]. destruct (IH H) as (l & Hl). eexists. apply (TSeq []); [constructor|exact Hl].
  - intros [H _]. destruct (IH H) as (l & Hl). eexists. apply (TKey []); [constructor|exact Hl].
  - intros [H _]. destruct (IH H) as (l & Hl). eexists. apply (TVal [EvAlias []] []); [constructor|constructor|exact Hl].
Qed.
Definition g_ok (g : gstate) : Prop := match g with GDoc _ fs => stack_ok fs | _ => True end.
Lemma gstep_ok g d g' : g_ok g -> gstep g d = Some g' -> g_ok g'.
Proof.
  assert (Ha : forall fs fs', stack_ok fs -> after fs = Some fs' -> stack_ok fs' /\ fs' <> [FRoot]).
  { intros [|[] r] fs'; cbn [after stack_ok]; try discriminate; try contradiction; intros H [= <-]; cbn [stack_ok].
    - destruct r; [auto|contradiction]. split; [reflexivity|discriminate].
    - split; [exact H|discriminate].
    - split; [exact H|discriminate].
    - split; [exact H|discriminate]. }
  intros Hg H. destruct g as [| |ds fs|]; destruct d; try discriminate H; try (injection H as <-; exact I); cbn [g_ok] in *.
  all: try (destruct fs as [|[] [|]]; discriminate).
  - destruct fs as [|[] [|]]; try discriminate; injection H as <-; exact I.
  - assert (Hs' : option_map (GDoc ds) (after fs) = Some g') by (destruct fs as [|[] [|]]; exact H).
    destruct (after fs) eqn:E; [|discriminate]. injection Hs' as <-. eapply Ha; eassumption.
  - assert (Hs' : option_map (GDoc ds) (after fs) = Some g') by (destruct fs as [|[] [|]]; exact H).
    destruct (after fs) eqn:E; [|discriminate]. injection Hs' as <-. eapply Ha; eassumption.
  - assert (Hs' : option_map (fun x => GDoc ds (FSeq :: x)) (after fs) = Some g') by (destruct fs as [|[] [|]]; exact H).
    destruct (after fs) eqn:E; [|discriminate]. injection Hs' as <-. cbn. eapply Ha; eassumption.
  - destruct fs as [|[] [|]]; try discriminate; injection H as <-; cbn in *; tauto.
  - assert (Hs' : option_map (fun x => GDoc ds (FKey :: x)) (after fs) = Some g') by (destruct fs as [|[] [|]]; exact H).
    destruct (after fs) eqn:E; [|discriminate]. injection Hs' as <-. cbn. eapply Ha; eassumption.
  - destruct fs as [|[] [|]]; try discriminate; injection H as <-; cbn in *; tauto.
Qed.
Lemma grun_ok l : forall g g', g_ok g -> grun g l = Some g' -> g_ok g'.
Proof.
  induction l as [|d l IH]; intros g g' Hg; cbn [grun]; [intros [= <-]; exact Hg|].
  destruct (gstep g d) eqn:E; [|discriminate]. apply IH. eapply gstep_ok; eassumption.
Qed.

(** A run of the automaton is a prefix of a stream, and a stream when it ends. *)
Theorem grun_prefix l g : grun GStart l = Some g -> exists r, stream_events (l ++ r).
Proof.
  intros H. assert (Hg : g_ok g) by (eapply grun_ok; [|exact H]; exact I).
  assert (exists r, accepts g r) as (r & Hr).
  { destruct g as [| |ds fs|].
    - exists (EvStreamStart Utf8 :: [] ++ [EvStreamEnd]). exists Utf8, []. split; [constructor|reflexivity].
    - exists ([] ++ [EvStreamEnd]). exists []. split; [constructor|reflexivity].
    - apply tail_exists, Hg.
    - exists []. reflexivity. }
  exists r. apply (accepts_run l GStart g r H Hr).
Qed.
Theorem grun_end l : grun GStart l = Some GEnd -> stream_events l.
Proof. intros H. rewrite <- (app_nil_r l). apply (accepts_run l GStart GEnd [] H). reflexivity. Qed.

(** Conversely, the automaton accepts every stream. *)
Scheme node_ind' := Induction for node_events Sort Prop
  with nodes_ind' := Induction for nodes_events Sort Prop
  with pairs_ind' := Induction for pairs_events Sort Prop.
Combined Scheme events_ind from node_ind', nodes_ind', pairs_ind'.
Lemma grun_nodes :
  (forall n, node_events n -> forall ds fs fs', after fs = Some fs' -> grun (GDoc ds fs) n = Some (GDoc ds fs')) /\
  (forall n, nodes_events n -> forall ds fs, grun (GDoc ds (FSeq :: fs)) n = Some (GDoc ds (FSeq :: fs))) /\
  (forall n, pairs_events n -> forall ds fs, grun (GDoc ds (FKey :: fs)) n = Some (GDoc ds (FKey :: fs))).
Proof.
  assert (Hg : forall ds fs fs' d, after fs = Some fs' ->
     gstep (GDoc ds fs) d = match d with
       | EvAlias _ | EvScalar _ _ _ _ _ _ => Some (GDoc ds fs')
       | EvSequenceStart _ _ _ _ => Some (GDoc ds (FSeq :: fs'))
       | EvMappingStart _ _ _ _ => Some (GDoc ds (FKey :: fs'))
       | _ => gstep (GDoc ds fs) d end).
  { intros ds fs fs' d H. destruct fs as [|[] [|]]; try discriminate H; injection H as <-; destruct d; reflexivity. }
  apply (events_ind (fun n _ => forall ds fs fs', after fs = Some fs' -> grun (GDoc ds fs) n = Some (GDoc ds fs'))
    (fun n _ => forall ds fs, grun (GDoc ds (FSeq :: fs)) n = Some (GDoc ds (FSeq :: fs)))
    (fun n _ => forall ds fs, grun (GDoc ds (FKey :: fs)) n = Some (GDoc ds (FKey :: fs)))).
  - intros a ds fs fs' H. cbn [grun]. rewrite (Hg _ _ _ _ H). reflexivity.
  - intros a t v p q st ds fs fs' H. cbn [grun]. rewrite (Hg _ _ _ _ H). reflexivity.
  - intros a t i st l _ IH ds fs fs' H. cbn [grun]. rewrite (Hg _ _ _ _ H). rewrite grun_app, IH. destruct fs'; reflexivity.
  - intros a t i st l _ IH ds fs fs' H. cbn [grun]. rewrite (Hg _ _ _ _ H). rewrite grun_app, IH. destruct fs'; reflexivity.
  - intros ds fs. reflexivity.
  - intros n l _ IHn _ IHl ds fs. rewrite grun_app. rewrite (IHn ds (FSeq :: fs) (FSeq :: fs) eq_refl). apply IHl.
  - intros ds fs. reflexivity.
  - intros k v l _ IHk _ IHv _ IHl ds fs. rewrite grun_app, (IHk ds (FKey :: fs) (FVal :: fs) eq_refl).
    rewrite grun_app, (IHv ds (FVal :: fs) (FKey :: fs) eq_refl). apply IHl.
Qed.
Lemma grun_docs l : documents_events l -> grun GDocs l = Some GDocs.
Proof.
  induction 1 as [|vd tds i n j l Hn _ IH]; [reflexivity|]. cbn [grun gstep]. rewrite grun_app.
  rewrite (proj1 grun_nodes n Hn tds [FRoot] [FDone] eq_refl). cbn [grun gstep]. exact IH.
Qed.
Theorem stream_grun l : stream_events l -> grun GStart l = Some GEnd.
Proof. intros (e & docs & Hd & ->). cbn [grun gstep]. rewrite grun_app, (grun_docs _ Hd). reflexivity. Qed.
