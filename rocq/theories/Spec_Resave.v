(** Spec_Resave.v -- a document that is loaded, saved and loaded again.  Nothing here refers to the
    inside of the emitter, the parser or the loader. *)
From Verif Require Import Base Spec_Events Chars State EState Emitter Document Spec_Document Spec_Dump Spec_EmitNames Spec_Canonical.

(** The same tag, and the same value, items or pairs (with the same numbers); the style and the place
    in the text may differ. *)
Definition same_content (n n' : node) : Prop :=
  n_tag n' = n_tag n /\
  match n_data n, n_data n' with
  | NScalar v _, NScalar v' _ => v' = v
  | NSequence ks _, NSequence ks' _ => ks' = ks
  | NMapping kvs _, NMapping kvs' _ => kvs' = kvs
  | _, _ => False
  end.
(** The same nodes in the same order, and the same directives. *)
Definition same_document (d d' : document) : Prop :=
  Forall2 same_content (d_nodes d) (d_nodes d') /\
  d_version_directive d' = d_version_directive d /\ d_tag_directives d' = d_tag_directives d.

(** Tags, and the prefixes of %TAG directives, are ASCII; what is left of a tag after the prefix of a
    directive contains no comma and no square bracket (C40). *)
Definition writable_tags (d : document) : Prop :=
  Forall (fun td => ascii_text (td_prefix td)) (d_tag_directives d) /\
  Forall (fun n => all (fun t => ascii_text t /\
    forall td x, usable (d_tag_directives d) td -> t = td_prefix td ++ x -> ~ In 44%N x /\ ~ In 91%N x /\ ~ In 93%N x) (n_tag n)) (d_nodes d).
(** Only the root and the nodes it refers to are met more than once in a walk through the document
    ([dump] cannot write other shared nodes: C23). *)
Definition shared_near_the_root (d : document) : Prop :=
  forall w seen k, walks (d_nodes d) [] w seen -> goes_to w = 1%Z -> In k (revisited w) -> (2 <= occurrences k (root_references (d_nodes d)))%nat.
(** An event that is not an alias. *)
Definition no_alias (e : event) : Prop := match e_data e with EvAlias _ => False | _ => True end.
