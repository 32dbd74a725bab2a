(** Spec_EmitNames.v -- which events the emitter should refuse because of what they carry. *)
From Verif Require Import Base.

(** [0-9A-Za-z_-] *)
Definition name_char (c : char) : Prop :=
  48 <= c <= 57 \/ 65 <= c <= 90 \/ 97 <= c <= 122 \/ c = 95 \/ c = 45.
(** Anchors and aliases *)
Definition valid_name (s : str) : Prop := s <> [] /\ Forall name_char s.
(** %YAML 1.1 or 1.2 *)
Definition valid_version (v : version_directive) : Prop := (vd_major v = 1 /\ (vd_minor v = 1 \/ vd_minor v = 2))%Z.
(** Handles: !, !! or !word! *)
Definition valid_handle (h : str) : Prop := h = lit "!" \/ exists w, h = lit "!" ++ w ++ lit "!" /\ Forall name_char w.
Definition valid_directive (t : tag_directive) : Prop := valid_handle (td_handle t) /\ td_prefix t <> [].

(** The tag of a node is written unless an implicit flag of the event says that it may be left
    out; in canonical mode it always is. *)
Definition written_tag (canonical : bool) (d : event_data) : option str :=
  match d with
  | EvScalar _ t _ pi qi _ => if canonical || negb pi && negb qi then t else None
  | EvSequenceStart _ t i _ | EvMappingStart _ t i _ => if canonical || negb i then t else None
  | _ => None
  end.
Definition anchor_in (d : event_data) : option str :=
  match d with
  | EvAlias a => Some a
  | EvScalar a _ _ _ _ _ | EvSequenceStart a _ _ _ | EvMappingStart a _ _ _ => a
  | _ => None
  end.
Definition all {A} (P : A -> Prop) (o : option A) : Prop := match o with Some a => P a | None => True end.
Definition valid_names (canonical : bool) (d : event_data) : Prop :=
  all valid_name (anchor_in d) /\ all (fun t => t <> []) (written_tag canonical d).
Definition valid_directives (d : event_data) : Prop :=
  match d with
  | EvDocumentStart vd tds _ => all valid_version vd /\ Forall valid_directive tds /\ NoDup (map td_handle tds)
  | _ => True
  end.
(** A scalar without tag must be allowed to go without. *)
Definition valid_flags (d : event_data) : Prop :=
  match d with EvScalar _ None _ pi qi _ => pi = true \/ qi = true | _ => True end.
Definition valid_event (canonical : bool) (d : event_data) : Prop :=
  valid_names canonical d /\ valid_directives d /\ valid_flags d.

(** Tags are URIs, made of ASCII characters. *)
Definition ascii_tag (d : event_data) : Prop :=
  match d with
  | EvScalar _ (Some t) _ _ _ _ | EvSequenceStart _ (Some t) _ _ | EvMappingStart _ (Some t) _ _ => Forall (fun c => c < 128) t
  | _ => True
  end.
