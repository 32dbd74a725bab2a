(** Spec_Notation.v -- what the programs of the crate, which print events on lines and read them
    again, keep of an event, and which events they handle. *)
From Verif Require Import Base.
Open Scope N_scope.

(** What is left of an event: encoding, directives and styles of collections are not printed, and
    the flags of nodes only tell whether there is a tag. *)
Definition noted (d : event_data) : event_data :=
  match d with
  | EvStreamStart _ => EvStreamStart Utf8
  | EvDocumentStart _ _ i => EvDocumentStart None [] i
  | EvScalar a t v _ _ s => let i := match t with None => true | Some _ => false end in EvScalar a t v i i s
  | EvSequenceStart a t _ _ => EvSequenceStart a t false SeqBlock
  | EvMappingStart a t _ _ => EvMappingStart a t false MapBlock
  | d => d
  end.

(** The anchor is looked for behind the first ampersand, the tag between the first "<" and the next
    ">", and the value behind the first space before one of the characters that tell the style.
    Without anchor, no ampersand may come before the last character. *)
Definition no_ampersand (rest : str) : Prop := forall x y, rest = x ++ 38 :: y -> y = [].
(** Without tag, the value has no "<" with ">" behind it. *)
Definition no_angles (v : str) : Prop := forall x y z, v <> x ++ 60 :: y ++ 62 :: z.
(** A tag has no ">", and no space before a style character or at its end. *)
Definition style_char (c : char) : Prop := c = 58 \/ c = 39 \/ c = 34 \/ c = 124 \/ c = 62.
Definition good_tag (t : str) : Prop := ~ In 62 t.
Definition spaced_tag (t : str) : Prop := (forall x c y, t = x ++ 32 :: c :: y -> ~ style_char c) /\ (forall x, t <> x ++ [32]).
Definition text_of (o : option str) : str := match o with Some t => t | None => [] end.
Definition readable (d : event_data) : Prop :=
  match d with
  | EvScalar a t v _ _ _ =>
      (a = None -> ~ In 38 (text_of t) /\ no_ampersand v) /\
      match t with Some t => good_tag t /\ spaced_tag t | None => no_angles v end
  | EvSequenceStart a t _ _ | EvMappingStart a t _ _ =>
      (a = None -> ~ In 38 (text_of t)) /\ match t with Some t => good_tag t | None => True end
  | _ => True
  end.

(** Events are printed on one line. *)
Definition tag_in (d : event_data) : option str :=
  match d with EvScalar _ t _ _ _ _ | EvSequenceStart _ t _ _ | EvMappingStart _ t _ _ => t | _ => None end.
Definition on_one_line (d : event_data) : Prop := ~ In 10 (text_of (tag_in d)).

(** The same node, whatever its style; document markers may differ. *)
Inductive same_note : event_data -> event_data -> Prop :=
| SN_stream e e' : same_note (EvStreamStart e) (EvStreamStart e')
| SN_end : same_note EvStreamEnd EvStreamEnd
| SN_document vd tds i vd' tds' i' : same_note (EvDocumentStart vd tds i) (EvDocumentStart vd' tds' i')
| SN_document_end i i' : same_note (EvDocumentEnd i) (EvDocumentEnd i')
| SN_alias a : same_note (EvAlias a) (EvAlias a)
| SN_scalar a t v pi qi s pi' qi' s' : same_note (EvScalar a t v pi qi s) (EvScalar a t v pi' qi' s')
| SN_sequence a t i s i' s' : same_note (EvSequenceStart a t i s) (EvSequenceStart a t i' s')
| SN_sequence_end : same_note EvSequenceEnd EvSequenceEnd
| SN_mapping a t i s i' s' : same_note (EvMappingStart a t i s) (EvMappingStart a t i' s')
| SN_mapping_end : same_note EvMappingEnd EvMappingEnd.
