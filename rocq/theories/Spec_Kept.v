(** Spec_Kept.v -- what is kept of documents that are saved without [canonical]: everything but the
    styles, and whether the starts and ends of documents are written out. *)
From Verif Require Import Base Chars State EState Emitter Document Spec_Document Spec_Dump Spec_Save Spec_Folded.

(** [n'] says the same as [n], when the node number [k] has become number [m k].  A missing tag and
    the tag "!" stand for the default tag. *)
Definition kept_node (m : Z -> Z) (n n' : node) : Prop :=
  match n_data n with
  | NoNode => False
  | NScalar v _ => (exists st, n_data n' = NScalar v st) /\ n_tag n' = node_tag (n_tag n) STR_TAG
  | NSequence ks _ => (exists st, n_data n' = NSequence (map m ks) st) /\ n_tag n' = node_tag (n_tag n) SEQ_TAG
  | NMapping kvs _ => (exists st, n_data n' = NMapping (map (fun '(x, y) => (m x, m y)) kvs) st) /\ n_tag n' = node_tag (n_tag n) MAP_TAG
  end.
(** [nodes'] is the part of [nodes] that can be reached, renumbered: a graph isomorphism that keeps
    the root. *)
Definition kept_graph (nodes nodes' : list node) : Prop :=
  exists m : Z -> Z, m 1%Z = 1%Z /\
    (forall k, reachable nodes k -> exists n n', kth_node nodes k = Some n /\ kth_node nodes' (m k) = Some n' /\ kept_node m n n') /\
    (forall j k, reachable nodes j -> reachable nodes k -> m j = m k -> j = k) /\
    (forall i, (1 <= i <= Z.of_nat (length nodes'))%Z -> exists k, reachable nodes k /\ m k = i).
Definition kept_document (d d' : document) : Prop :=
  kept_graph (d_nodes d) (d_nodes d') /\ d_version_directive d' = d_version_directive d /\ d_tag_directives d' = d_tag_directives d.

(** Where the folded style is asked for, the value must be one that it can carry (C34). *)
Definition node_foldable (n : node) : Prop :=
  match n_data n with NScalar v SFolded => always_folds_well v | _ => True end.
(** A first document is invisible if its start is implicit, it has no directives, and its root is an
    empty plain scalar with the default tag: nothing at all is written for it. *)
Definition invisible (d : document) : bool :=
  match d_nodes d with
  | n :: _ => d_start_implicit d && negb (has_directives d) && tag_is n STR_TAG && match n_data n with NScalar [] (SAny | SPlain) => true | _ => false end
  | [] => false
  end.
