(** CanonToks.v -- the tokens of canonical output, event by event. *)
From Verif Require Import Base State Scanner Emitter Spec_Events EventFacts.

(** The tag directives in force: those of the document and the default ones they do not replace. *)
Definition all_tds (ds : list tag_directive) : list tag_directive :=
  ds ++ filter (fun t => negb (existsb (fun u => str_eqb (td_handle t) (td_handle u)) ds)) default_tag_directives.

Definition anchor_toks (a : option str) : list token_data := match a with Some a => [TAnchor a] | None => [] end.
(** A tag is written as a whole, or by a handle and the rest. *)
Inductive tag_toks (tds : list tag_directive) : option str -> list token_data -> Prop :=
| TT_none : tag_toks tds None []
| TT_whole t : tag_toks tds (Some t) [TTag [] t]
| TT_short td x : In td tds -> x <> [] -> tag_toks tds (Some (td_prefix td ++ x)) [TTag (td_handle td) x].
(** The non-specific tag of a scalar that must not be resolved by its plain form. *)
Definition written (t : option str) (qi : bool) : option str := match t with None => if qi then None else Some (lit "!") | t => t end.
Inductive node_toks (tds : list tag_directive) : event_data -> list token_data -> Prop :=
| NT_alias a : node_toks tds (EvAlias a) [TAlias a]
| NT_scalar a t v pi qi sty tk : tag_toks tds (written t qi) tk -> node_toks tds (EvScalar a t v pi qi sty) (anchor_toks a ++ tk ++ [TScalar v SDouble])
| NT_seq a t i sty tk : tag_toks tds t tk -> node_toks tds (EvSequenceStart a t i sty) (anchor_toks a ++ tk)
| NT_map a t i sty tk : tag_toks tds t tk -> node_toks tds (EvMappingStart a t i sty) (anchor_toks a ++ tk).

(** The grammar state, with: the innermost collection has just been started; an implicit end of document has just been written. *)
Record cst := CS { cg : gstate; cfirst : bool; copen : bool }.
(** What stands before a node. *)
Definition lead (fs : list frame) (first : bool) : list token_data :=
  match fs with
  | FSeq :: _ => [if first then TFlowSequenceStart else TFlowEntry]
  | FKey :: _ => [if first then TFlowMappingStart else TFlowEntry; Base.TKey]
  | FVal :: _ => [TValue]
  | _ => []
  end.
Definition has_directives (vd : option version_directive) (tds : list tag_directive) : bool := match vd with Some _ => true | None => negb (is_empty tds) end.
Definition directive_toks (vd : option version_directive) (tds : list tag_directive) : list token_data :=
  match vd with Some v => [TVersionDirective (vd_major v) (vd_minor v)] | None => [] end ++ map (fun t => TTagDirective (td_handle t) (td_prefix t)) tds.
Definition push (d : event_data) (fs : list frame) : list frame :=
  match d with EvSequenceStart _ _ _ _ => FSeq :: fs | EvMappingStart _ _ _ _ => FKey :: fs | _ => fs end.
Definition opens (d : event_data) : bool := match d with EvSequenceStart _ _ _ _ | EvMappingStart _ _ _ _ => true | _ => false end.
Inductive cstep : cst -> event_data -> list token_data -> cst -> Prop :=
| C_doc f oe vd tds imp :
    cstep (CS GDocs f oe) (EvDocumentStart vd tds imp)
      ((if oe && has_directives vd tds then [TDocumentEnd] else []) ++ directive_toks vd tds ++ [TDocumentStart]) (CS (GDoc tds [FRoot]) false false)
| C_end f oe ds imp : cstep (CS (GDoc ds [FDone]) f oe) (EvDocumentEnd imp) (if imp then [] else [TDocumentEnd]) (CS GDocs false imp)
| C_stream_end f oe : cstep (CS GDocs f oe) EvStreamEnd [] (CS GEnd false false)
| C_node ds fs fs' first oe d tk : after fs = Some fs' -> node_toks (all_tds ds) d tk ->
    cstep (CS (GDoc ds fs) first oe) d (lead fs first ++ tk) (CS (GDoc ds (push d fs')) (opens d) oe)
| C_seq_end ds r first oe : cstep (CS (GDoc ds (FSeq :: r)) first oe) EvSequenceEnd [if first then TFlowSequenceStart else TFlowEntry; TFlowSequenceEnd] (CS (GDoc ds r) false oe)
| C_map_end ds r first oe : cstep (CS (GDoc ds (FKey :: r)) first oe) EvMappingEnd [if first then TFlowMappingStart else TFlowEntry; TFlowMappingEnd] (CS (GDoc ds r) false oe).
Inductive crun : cst -> list event_data -> list token_data -> cst -> Prop :=
| CR_nil st : crun st [] [] st
| CR_cons st d t st1 l t' st2 : cstep st d t st1 -> crun st1 l t' st2 -> crun st (d :: l) (t ++ t') st2.
Lemma crun_app st a t st1 b t' st2 : crun st a t st1 -> crun st1 b t' st2 -> crun st (a ++ b) (t ++ t') st2.
Proof. induction 1; intros H2; [exact H2|]. cbn [app]. rewrite <- app_assoc. econstructor; [eassumption|auto]. Qed.
