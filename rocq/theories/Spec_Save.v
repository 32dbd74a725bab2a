(** Spec_Save.v -- saving documents and what has been saved.  Nothing here refers to the inside of
    the emitter, the parser or the loader. *)
From Verif Require Import Base Chars State EState Emitter Document Spec_Document Spec_Dump Spec_EmitNames Spec_Canonical.

(** [Document::dump] for each document, then [Emitter::close]. *)
Fixpoint save (ds : list document) : M est unit :=
  match ds with [] => emitter_close | d :: r => dump d ;; save r end.

(** The nodes that can be reached from the root. *)
Inductive reachable (nodes : list node) : Z -> Prop :=
| Re_root : reachable nodes 1%Z
| Re_item k n ks st i : reachable nodes k -> kth_node nodes k = Some n -> n_data n = NSequence ks st -> In i ks -> reachable nodes i
| Re_key k n kvs st x y : reachable nodes k -> kth_node nodes k = Some n -> n_data n = NMapping kvs st -> In (x, y) kvs -> reachable nodes x
| Re_value k n kvs st x y : reachable nodes k -> kth_node nodes k = Some n -> n_data n = NMapping kvs st -> In (x, y) kvs -> reachable nodes y.

(** [n'] says the same as [n], when the node number [k] has become number [m k].  Styles are those of
    canonical output; a missing tag and the tag "!" stand for the default tag. *)
Definition same_node (m : Z -> Z) (n n' : node) : Prop :=
  match n_data n with
  | NoNode => False
  | NScalar v _ => n_data n' = NScalar v SDouble /\ n_tag n' = node_tag (n_tag n) STR_TAG
  | NSequence ks _ => n_data n' = NSequence (map m ks) SeqFlow /\ n_tag n' = node_tag (n_tag n) SEQ_TAG
  | NMapping kvs _ => n_data n' = NMapping (map (fun '(x, y) => (m x, m y)) kvs) MapFlow /\ n_tag n' = node_tag (n_tag n) MAP_TAG
  end.
(** [nodes'] is the part of [nodes] that can be reached, renumbered: a graph isomorphism that keeps
    the root. *)
Definition same_graph (nodes nodes' : list node) : Prop :=
  exists m : Z -> Z, m 1%Z = 1%Z /\
    (forall k, reachable nodes k -> exists n n', kth_node nodes k = Some n /\ kth_node nodes' (m k) = Some n' /\ same_node m n n') /\
    (forall j k, reachable nodes j -> reachable nodes k -> m j = m k -> j = k) /\
    (forall i, (1 <= i <= Z.of_nat (length nodes'))%Z -> exists k, reachable nodes k /\ m k = i).
Definition has_directives (d : document) : bool :=
  match d_version_directive d, d_tag_directives d with None, [] => false | _, _ => true end.
(** The documents [ds'] are what [ds] become. *)
Inductive saved_as : list document -> list document -> Prop :=
| SA_nil : saved_as [] []
| SA_cons d ds d' ds' :
    same_graph (d_nodes d) (d_nodes d') ->
    d_version_directive d' = d_version_directive d -> d_tag_directives d' = d_tag_directives d -> d_start_implicit d' = false ->
    d_end_implicit d' = (d_end_implicit d && negb (match ds with d2 :: _ => has_directives d2 | [] => false end))%bool ->
    saved_as ds ds' -> saved_as (d :: ds) (d' :: ds').

(** ** The documents that can be saved *)
(** Scalars have a tag; tags are ASCII, not empty, and can be abbreviated if there is a handle for
    them (see [abbreviable]); values are strings of Unicode scalar values. *)
Definition storable_node (tds : list tag_directive) (n : node) : Prop :=
  match n_tag n with
  | Some t => t <> [] /\ ascii_text t /\ (forall td x, usable tds td -> t = td_prefix td ++ x -> ~ In 44%N x /\ ~ In 91%N x /\ ~ In 93%N x)
  | None => match n_data n with NScalar _ _ => False | _ => True end
  end /\
  match n_data n with NScalar v _ => Forall (fun c => c < 55296 \/ 57344 <= c < 1114112)%N v | _ => True end.
Definition storable (d : document) : Prop :=
  d_nodes d <> [] /\ Forall (sound_node (Z.of_nat (length (d_nodes d)))) (d_nodes d) /\
  Forall (storable_node (d_tag_directives d)) (d_nodes d) /\
  all valid_version (d_version_directive d) /\ Forall valid_directive (d_tag_directives d) /\ NoDup (map td_handle (d_tag_directives d)) /\
  Forall (fun td => ascii_text (td_prefix td)) (d_tag_directives d) /\
  (* only the root and the nodes the root refers to may be shared *)
  (forall w seen k, walks (d_nodes d) [] w seen -> goes_to w = 1%Z -> In k (revisited w) -> (2 <= occurrences k (root_references (d_nodes d)))%nat).
(** How much there is to write: nodes, references and documents. *)
Definition weight (n : node) : nat :=
  match n_data n with NSequence ks _ => 2 + length ks | NMapping kvs _ => 2 + 2 * length kvs | _ => 2 end.
Definition volume (ds : list document) : nat :=
  fold_right (fun d v => 3 + fold_right (fun n v => weight n + v) 0 (d_nodes d) + v)%nat 0%nat ds.
