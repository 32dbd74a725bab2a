(** Spec_Dump.v -- the events that describe a document, as a graph of nodes.  Nothing here refers to
    [dump]. *)
From Verif Require Import Base State EState Emitter Document Spec_Document.
Open Scope Z_scope.

(** ** Walking through the nodes of a document from its root, in pre-order.
    A node that has been visited before is not entered again: [WkRef]. *)
Inductive walk :=
| WkRef (k : Z)
| WkScalar (k : Z)
| WkSequence (k : Z) (items : list walk)
| WkMapping (k : Z) (pairs : list (walk * walk)).
Definition goes_to (w : walk) : Z := match w with WkRef k | WkScalar k | WkSequence k _ | WkMapping k _ => k end.
(** [walks nodes seen w seen']: [w] is the walk that starts at the node [goes_to w] when the nodes
    [seen] have been visited; afterwards [seen'] have been. *)
Inductive walks (nodes : list node) : list Z -> walk -> list Z -> Prop :=
| Wk_ref seen k : In k seen -> walks nodes seen (WkRef k) seen
| Wk_scalar seen k n v st : ~ In k seen -> kth_node nodes k = Some n -> n_data n = NScalar v st ->
    walks nodes seen (WkScalar k) (k :: seen)
| Wk_sequence seen k n l st seen' : ~ In k seen -> kth_node nodes k = Some n -> n_data n = NSequence (map goes_to l) st ->
    walks_list nodes (k :: seen) l seen' -> walks nodes seen (WkSequence k l) seen'
| Wk_mapping seen k n l st seen' : ~ In k seen -> kth_node nodes k = Some n ->
    n_data n = NMapping (map (fun '(x, y) => (goes_to x, goes_to y)) l) st ->
    walks_pairs nodes (k :: seen) l seen' -> walks nodes seen (WkMapping k l) seen'
with walks_list (nodes : list node) : list Z -> list walk -> list Z -> Prop :=
| WL_nil seen : walks_list nodes seen [] seen
| WL_cons seen w s1 l s2 : walks nodes seen w s1 -> walks_list nodes s1 l s2 -> walks_list nodes seen (w :: l) s2
with walks_pairs (nodes : list node) : list Z -> list (walk * walk) -> list Z -> Prop :=
| WP_nil seen : walks_pairs nodes seen [] seen
| WP_cons seen x s1 y s2 l s3 : walks nodes seen x s1 -> walks nodes s1 y s2 -> walks_pairs nodes s2 l s3 ->
    walks_pairs nodes seen ((x, y) :: l) s3.

(** The nodes a walk comes back to. *)
Fixpoint revisited (w : walk) : list Z :=
  match w with
  | WkRef k => [k]
  | WkScalar _ => []
  | WkSequence _ l => flat_map revisited l
  | WkMapping _ l => flat_map (fun '(x, y) => revisited x ++ revisited y) l
  end.

(** ** The events of a walk; [name k] is the anchor of node [k].  [None] stands for an alias to a
    node that has no anchor, which cannot be written. *)
Definition tag_is (n : node) (t : str) : bool := match n_tag n with Some x => str_eqb x t | None => false end.
Fixpoint events_of_walk (nodes : list node) (name : Z -> option str) (w : walk) : list (option event_data) :=
  match w with
  | WkRef k => [match name k with Some a => Some (EvAlias a) | None => None end]
  | WkScalar k =>
      match kth_node nodes k with
      | Some n => match n_data n with
                  | NScalar v st => [Some (EvScalar (name k) (n_tag n) v (tag_is n STR_TAG) (tag_is n STR_TAG) st)]
                  | _ => []
                  end
      | None => []
      end
  | WkSequence k l =>
      match kth_node nodes k with
      | Some n => match n_data n with
                  | NSequence _ st =>
                      Some (EvSequenceStart (name k) (n_tag n) (tag_is n SEQ_TAG) st)
                      :: flat_map (events_of_walk nodes name) l ++ [Some EvSequenceEnd]
                  | _ => []
                  end
      | None => []
      end
  | WkMapping k l =>
      match kth_node nodes k with
      | Some n => match n_data n with
                  | NMapping _ st =>
                      Some (EvMappingStart (name k) (n_tag n) (tag_is n MAP_TAG) st)
                      :: flat_map (fun '(x, y) => events_of_walk nodes name x ++ events_of_walk nodes name y) l ++ [Some EvMappingEnd]
                  | _ => []
                  end
      | None => []
      end
  end.
Definition document_events (d : document) (name : Z -> option str) (w : walk) : list (option event_data) :=
  Some (EvDocumentStart (d_version_directive d) (d_tag_directives d) (d_start_implicit d))
  :: events_of_walk (d_nodes d) name w ++ [Some (EvDocumentEnd (d_end_implicit d))].

(** ** Anchors.  The crate looks at the references to the root and from the root only. *)
Definition root_references (nodes : list node) : list Z :=
  1 :: match kth_node nodes 1 with
       | Some n => match n_data n with
                   | NSequence items _ => items
                   | NMapping pairs _ => flat_map (fun '(k, v) => [k; v]) pairs
                   | _ => []
                   end
       | None => []
       end.
Definition occurrences (k : Z) (l : list Z) : nat := count_occ Z.eq_dec l k.
(** The nodes referred to twice, in the order of the second reference. *)
Fixpoint seconds (before l : list Z) : list Z :=
  match l with
  | [] => []
  | k :: r => if Nat.eqb (occurrences k before) 1 then k :: seconds (before ++ [k]) r else seconds (before ++ [k]) r
  end.
(** They are numbered from [from + 1] on. *)
Fixpoint number_in (from : Z) (k : Z) (l : list Z) : option Z :=
  match l with
  | [] => None
  | x :: r => if x =? k then Some (from + 1) else number_in (from + 1) k r
  end.
Definition anchor_names (from : Z) (nodes : list node) (k : Z) : option str :=
  match number_in from k (seconds [] (root_references nodes)) with
  | Some i => Some (generate_anchor i)
  | None => None
  end.

(** ** Sending events *)
Definition send (o : option event_data) : M est unit :=
  match o with Some x => emit (event_new x) | None => panics PAliasUnwrap end.
Fixpoint send_all (l : list (option event_data)) : M est unit :=
  match l with [] => ret tt | o :: r => send o ;; send_all r end.

(** ** The plain case: the events of the node [k] of a tree, in pre-order, without anchors. *)
Inductive preorder (nodes : list node) : Z -> list event_data -> Prop :=
| Pre_scalar k n v st : kth_node nodes k = Some n -> n_data n = NScalar v st ->
    preorder nodes k [EvScalar None (n_tag n) v (tag_is n STR_TAG) (tag_is n STR_TAG) st]
| Pre_sequence k n ks st es : kth_node nodes k = Some n -> n_data n = NSequence ks st -> preorder_list nodes ks es ->
    preorder nodes k (EvSequenceStart None (n_tag n) (tag_is n SEQ_TAG) st :: es ++ [EvSequenceEnd])
| Pre_mapping k n kvs st es : kth_node nodes k = Some n -> n_data n = NMapping kvs st -> preorder_pairs nodes kvs es ->
    preorder nodes k (EvMappingStart None (n_tag n) (tag_is n MAP_TAG) st :: es ++ [EvMappingEnd])
with preorder_list (nodes : list node) : list Z -> list event_data -> Prop :=
| PreL_nil : preorder_list nodes [] []
| PreL_cons k ks es es' : preorder nodes k es -> preorder_list nodes ks es' -> preorder_list nodes (k :: ks) (es ++ es')
with preorder_pairs (nodes : list node) : list (Z * Z) -> list event_data -> Prop :=
| PreP_nil : preorder_pairs nodes [] []
| PreP_cons k v kvs a b c : preorder nodes k a -> preorder nodes v b -> preorder_pairs nodes kvs c ->
    preorder_pairs nodes ((k, v) :: kvs) (a ++ b ++ c).
Definition plain_events (d : document) (es : list event_data) : list event_data :=
  EvDocumentStart (d_version_directive d) (d_tag_directives d) (d_start_implicit d) :: es ++ [EvDocumentEnd (d_end_implicit d)].
(** Handing events to the emitter one after another. *)
Fixpoint emit_all (l : list event_data) : M est unit :=
  match l with [] => ret tt | x :: r => emit (event_new x) ;; emit_all r end.

(** ** Values: what a document says, without numbers and marks. *)
Inductive value :=
| VScalar (tag : option str) (v : str) (st : scalar_style)
| VSequence (tag : option str) (st : seq_style) (items : list value)
| VMapping (tag : option str) (st : map_style) (pairs : list (value * value)).
(** The node [k] has this value.  (The tags absent and "!" count as the default tag.) *)
Inductive has_value (nodes : list node) : Z -> value -> Prop :=
| HV_scalar k n v st : kth_node nodes k = Some n -> n_data n = NScalar v st ->
    has_value nodes k (VScalar (node_tag (n_tag n) STR_TAG) v st)
| HV_sequence k n ks st l : kth_node nodes k = Some n -> n_data n = NSequence ks st -> have_values nodes ks l ->
    has_value nodes k (VSequence (node_tag (n_tag n) SEQ_TAG) st l)
| HV_mapping k n kvs st l : kth_node nodes k = Some n -> n_data n = NMapping kvs st -> have_pairs nodes kvs l ->
    has_value nodes k (VMapping (node_tag (n_tag n) MAP_TAG) st l)
with have_values (nodes : list node) : list Z -> list value -> Prop :=
| HVS_nil : have_values nodes [] []
| HVS_cons k v ks l : has_value nodes k v -> have_values nodes ks l -> have_values nodes (k :: ks) (v :: l)
with have_pairs (nodes : list node) : list (Z * Z) -> list (value * value) -> Prop :=
| HVP_nil : have_pairs nodes [] []
| HVP_cons k v x y ks l : has_value nodes k x -> has_value nodes v y -> have_pairs nodes ks l -> have_pairs nodes ((k, v) :: ks) ((x, y) :: l).

(** The nodes reachable from the root form a tree: walking never comes back to a node. *)
Definition tree_shaped (nodes : list node) : Prop :=
  exists w seen, walks nodes [] w seen /\ goes_to w = 1 /\ revisited w = [].
