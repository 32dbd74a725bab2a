(** LayToks.v -- the tokens of output in block or flow layout, event by event. *)
From Verif Require Import Base State Scanner Emitter Spec_Events EventFacts Spec_Layout.
From Verif Require Export CanonToks.

(** Sequences: flow, block, block without indentation of their own. *)
Inductive sk := SkFlow | SkBlock | SkInd.
(** Open places; [LRoot true] is the root of a document without start; in the others [true] stands for block. *)
Inductive lframe := LRoot (implicit : bool) | LDone | LSeq (k : sk) | LKey (block : bool) | LVal (block : bool).
Definition fr (f : lframe) : frame := match f with LRoot _ => FRoot | LDone => FDone | LSeq _ => FSeq | LKey _ => FKey | LVal _ => FVal end.
Definition next_frame (f : lframe) : lframe := match f with LRoot _ => LDone | LKey b => LVal b | LVal b => LKey b | f => f end.
Definition blk (f : lframe) : bool := match f with LSeq SkFlow | LKey false | LVal false => false | _ => true end.
(** What a node is: a leaf, an empty plain scalar, a collection. *)
Inductive act := NLeaf | NEmpty | NSeq (k : sk) | NMap (block : bool).
Definition opens_act (a : act) : bool := match a with NSeq _ | NMap _ => true | _ => false end.
Definition push_act (a : act) (fs : list lframe) : list lframe := match a with NSeq k => LSeq k :: fs | NMap b => LKey b :: fs | _ => fs end.
(** [f]: the frame after the node. *)
Definition act_ok (a : act) (f : lframe) : Prop :=
  match a with NEmpty | NSeq SkBlock | NMap true => blk f = true | NSeq SkInd => f = LKey true \/ f = LVal true | _ => True end.
Definition first_tok (a : act) : token_data :=
  match a with
  | NSeq SkFlow => TFlowSequenceStart | NSeq SkBlock => TBlockSequenceStart | NSeq SkInd => TBlockEntry
  | NMap true => TBlockMappingStart | _ => TFlowMappingStart
  end.
Definition scalar_tag (t : option str) (pi qi : bool) (t' : option str) (sty : scalar_style) : Prop :=
  (t' = kept_tag t (pi || qi) \/ kept_tag t (pi || qi) = None /\ t' = Some (lit "!") /\ qi = false /\ sty <> SPlain) /\
  (t' = None -> if style_eqb sty SPlain then pi = true else qi = true).
Inductive lnode (tds : list tag_directive) : event_data -> list token_data -> act -> Prop :=
| LN_alias a : lnode tds (EvAlias a) [TAlias a] NLeaf
| LN_scalar a t v pi qi sty tk t' sty' : scalar_tag t pi qi t' sty' -> tag_toks tds t' tk -> lnode tds (EvScalar a t v pi qi sty) (anchor_toks a ++ tk ++ [TScalar v sty']) NLeaf
| LN_empty a t pi qi sty tk t' : scalar_tag t pi qi t' SPlain -> tag_toks tds t' tk -> lnode tds (EvScalar a t [] pi qi sty) (anchor_toks a ++ tk) NEmpty
| LN_seq a t i sty tk k : tag_toks tds (kept_tag t i) tk -> lnode tds (EvSequenceStart a t i sty) (anchor_toks a ++ tk) (NSeq k)
| LN_map a t i sty tk b : tag_toks tds (kept_tag t i) tk -> lnode tds (EvMappingStart a t i sty) (anchor_toks a ++ tk) (NMap b).

(** Between documents ([true]: before the first), in a document, at the end. *)
Inductive lgs := LDocs (first : bool) | LDoc (ds : list tag_directive) (fs : list lframe) | LEndS.
Record lst := LT { lg : lgs; lfirst : bool; lopen : bool }.
Definition llead (f : lframe) (first : bool) : list token_data :=
  match f with
  | LSeq SkFlow => [if first then TFlowSequenceStart else TFlowEntry]
  | LSeq SkBlock => (if first then [TBlockSequenceStart] else []) ++ [TBlockEntry]
  | LSeq SkInd => [TBlockEntry]
  | LKey false => [if first then TFlowMappingStart else TFlowEntry; Base.TKey]
  | LKey true => (if first then [TBlockMappingStart] else []) ++ [Base.TKey]
  | LVal _ => [TValue]
  | _ => []
  end.
Definition seq_end (k : sk) (first : bool) : option (list token_data) :=
  match k with
  | SkFlow => Some ((if first then [TFlowSequenceStart] else []) ++ [TFlowSequenceEnd])
  | SkBlock => if first then None else Some [TBlockEnd]
  | SkInd => if first then None else Some []
  end.
Definition map_end (b first : bool) : option (list token_data) :=
  if b then if first then None else Some [TBlockEnd] else Some ((if first then [TFlowMappingStart] else []) ++ [TFlowMappingEnd]).
(** An empty plain scalar at the root of a document without start would leave no trace. *)
Definition shows (f : lframe) (a : act) (tk : list token_data) : Prop := match f with LRoot true => a = NEmpty -> tk <> [] | _ => True end.
Inductive lcstep : lst -> event_data -> list token_data -> lst -> Prop :=
| L_doc first f oe vd tds imp :
    lcstep (LT (LDocs first) f oe) (EvDocumentStart vd tds imp)
      ((if oe && has_directives vd tds then [TDocumentEnd] else []) ++ directive_toks vd tds ++ [TDocumentStart]) (LT (LDoc tds [LRoot false]) false false)
| L_doc_implicit f imp : lcstep (LT (LDocs true) f false) (EvDocumentStart None [] imp) [] (LT (LDoc [] [LRoot true]) false false)
| L_end f oe ds imp : lcstep (LT (LDoc ds [LDone]) f oe) (EvDocumentEnd imp) (if imp then [] else [TDocumentEnd]) (LT (LDocs false) false imp)
| L_stream_end first f oe (b : bool) : lcstep (LT (LDocs first) f oe) EvStreamEnd (if oe && b then [TDocumentEnd] else []) (LT LEndS false false)
| L_node ds f r first oe d tk a : f <> LDone -> lnode (all_tds ds) d tk a -> act_ok a (next_frame f) -> shows f a tk ->
    lcstep (LT (LDoc ds (f :: r)) first oe) d (llead f first ++ tk) (LT (LDoc ds (push_act a (next_frame f :: r))) (opens_act a) oe)
| L_seq_end ds k r first oe tk : seq_end k first = Some tk -> lcstep (LT (LDoc ds (LSeq k :: r)) first oe) EvSequenceEnd tk (LT (LDoc ds r) false oe)
| L_map_end ds b r first oe tk : map_end b first = Some tk -> lcstep (LT (LDoc ds (LKey b :: r)) first oe) EvMappingEnd tk (LT (LDoc ds r) false oe).
Inductive lcrun : lst -> list event_data -> list token_data -> lst -> Prop :=
| LR_nil st : lcrun st [] [] st
| LR_cons st d t st1 l t' st2 : lcstep st d t st1 -> lcrun st1 l t' st2 -> lcrun st (d :: l) (t ++ t') st2.
Lemma lcrun_app st a t st1 b t' st2 : lcrun st a t st1 -> lcrun st1 b t' st2 -> lcrun st (a ++ b) (t ++ t') st2.
Proof. induction 1; intros H2; [exact H2|]. cbn [app]. rewrite <- app_assoc. econstructor; [eassumption|auto]. Qed.
