(** Spec_Canonical.v -- what a canonical text says of the events it was written for. *)
From Verif Require Import Base Chars State EState Emitter.

(** The tag that is written: a scalar without tag that may go without one in its plain form only
    gets the non-specific tag "!". *)
Definition told_tag (t : option str) (quoted_implicit : bool) : option str :=
  match t with None => if quoted_implicit then None else Some (lit "!") | Some t => Some t end.
Definition is_bang (t : option str) : bool := match t with Some t => str_eqb t (lit "!") | None => false end.
Definition no_tag (t : option str) : bool := match t with None => true | Some _ => false end.
(** Styles are lost, values, anchors, tags and directives are not; the flags are those of the tag. *)
Definition reread_one (d : event_data) : event_data :=
  match d with
  | EvScalar a t v _ qi _ => EvScalar a (told_tag t qi) v (is_bang (told_tag t qi)) (no_tag (told_tag t qi)) SDouble
  | EvSequenceStart a t _ _ => EvSequenceStart a t (no_tag t) SeqFlow
  | EvMappingStart a t _ _ => EvMappingStart a t (no_tag t) MapFlow
  | EvDocumentStart vd tds _ => EvDocumentStart vd tds false
  | d => d
  end.
(** An implicit end of document is made explicit before a document with directives. *)
Definition directives_next (l : list event_data) : bool :=
  match l with
  | EvDocumentStart (Some _) _ _ :: _ | EvDocumentStart None (_ :: _) _ :: _ => true
  | _ => false
  end.
Fixpoint reread (l : list event_data) : list event_data :=
  match l with
  | [] => []
  | EvDocumentEnd i :: r => EvDocumentEnd (i && negb (directives_next r)) :: reread r
  | d :: r => reread_one d :: reread r
  end.

(** ** The streams that can be read back *)
(** The %TAG directives in force after some events: those of the last document start. *)
Fixpoint in_force (ds : list tag_directive) (before : list event_data) : list tag_directive :=
  match before with
  | [] => ds
  | EvDocumentStart _ tds _ :: r => in_force tds r
  | _ :: r => in_force ds r
  end.
Definition usable (ds : list tag_directive) (td : tag_directive) : Prop :=
  In td ds \/ In td default_tag_directives /\ ~ In (td_handle td) (map td_handle ds).
Definition tag_of_event (d : event_data) : option str :=
  match d with EvScalar _ t _ _ _ _ | EvSequenceStart _ t _ _ | EvMappingStart _ t _ _ => t | _ => None end.
(** When a tag can be abbreviated with a handle, what is left must not contain a comma or a square
    bracket: the emitter does not escape them, and the scanner does not take them in a shorthand. *)
Definition abbreviable (l : list event_data) : Prop :=
  forall before d after t td x, l = before ++ d :: after -> tag_of_event d = Some t -> usable (in_force [] before) td -> t = td_prefix td ++ x ->
  ~ In 44 x /\ ~ In 91 x /\ ~ In 93 x.
(** Tags and prefixes are ASCII; values are strings of Unicode scalar values (as in Rust). *)
Definition ascii_text (s : str) : Prop := Forall (fun c => c < 128) s.
Definition plain_data (d : event_data) : Prop :=
  match d with
  | EvScalar _ t v _ _ _ => match t with Some t => ascii_text t | None => True end /\ Forall (fun c => c < 55296 \/ 57344 <= c < 1114112) v
  | EvSequenceStart _ (Some t) _ _ | EvMappingStart _ (Some t) _ _ => ascii_text t
  | EvDocumentStart _ tds _ => Forall (fun td => ascii_text (td_prefix td)) tds
  | _ => True
  end.
