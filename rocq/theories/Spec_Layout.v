(** Spec_Layout.v -- what a text in block or flow layout says of the events it was written for. *)
From Verif Require Import Base Chars State EState Emitter Spec_Canonical Spec_Folded.

(** Without canonical output, a tag is left out if the event says that it is implied. *)
Definition kept_tag (t : option str) (implied : bool) : option str := if implied then None else t.

(** [told d d']: the event [d'] says what [d] says.  Styles may differ.

    A scalar keeps its anchor, its value and its tag, unless the tag is implied.  If it comes back
    without tag, then in a form (plain or quoted) in which the event says that its tag is implied;
    a scalar whose tag is implied by its plain form only, but that cannot be written as a plain
    scalar, comes back with the non-specific tag "!". *)
Inductive told : event_data -> event_data -> Prop :=
| Told_stream e : told (EvStreamStart e) (EvStreamStart e)
| Told_end : told EvStreamEnd EvStreamEnd
| Told_document vd tds i i' : told (EvDocumentStart vd tds i) (EvDocumentStart vd tds i')
| Told_document_end i i' : told (EvDocumentEnd i) (EvDocumentEnd i')
| Told_alias a : told (EvAlias a) (EvAlias a)
| Told_sequence a t i s s' : told (EvSequenceStart a t i s) (EvSequenceStart a (kept_tag t i) (no_tag (kept_tag t i)) s')
| Told_sequence_end : told EvSequenceEnd EvSequenceEnd
| Told_mapping a t i s s' : told (EvMappingStart a t i s) (EvMappingStart a (kept_tag t i) (no_tag (kept_tag t i)) s')
| Told_mapping_end : told EvMappingEnd EvMappingEnd
| Told_scalar a t v pi qi s t' pi' qi' s' :
    (t' = kept_tag t (pi || qi) \/ kept_tag t (pi || qi) = None /\ t' = Some (lit "!") /\ qi = false /\ s' <> SPlain) ->
    (t' = None -> s' = SPlain /\ pi = true /\ pi' = true /\ qi' = false \/ s' <> SPlain /\ qi = true /\ pi' = false /\ qi' = true) ->
    told (EvScalar a t v pi qi s) (EvScalar a t' v pi' qi' s').

(** ** The streams that can be read back *)
(** Where the folded style is asked for, the value must be one that it can carry (C34). *)
Definition foldable (d : event_data) : Prop := match d with EvScalar _ _ v _ _ SFolded => always_folds_well v | _ => True end.
(** Collections that are open after some events. *)
Fixpoint nesting (l : list event_data) : Z :=
  match l with
  | [] => 0
  | (EvSequenceStart _ _ _ _ | EvMappingStart _ _ _ _) :: r => 1 + nesting r
  | (EvSequenceEnd | EvMappingEnd) :: r => nesting r - 1
  | _ :: r => nesting r
  end%Z.
(** A level takes up to ten columns, and columns are 32-bit numbers. *)
Definition shallow (l : list event_data) : Prop := forall before rest, l = before ++ rest -> (nesting before < 214748364)%Z.
(** Nothing is written for an empty plain scalar, nor for the start of a first document that is
    implicit; with both there would be no document. *)
Definition visible_root (l : list event_data) : Prop :=
  match l with
  | EvDocumentStart None [] true :: EvScalar None _ [] true _ (SAny | SPlain) :: _ => False
  | _ => True
  end.
