(** Spec_Document.v -- what a document is: a tree of nodes, the events that describe it, and the
    table of nodes that represents it.  Nothing here refers to the loader. *)
From Verif Require Import Base Spec_Events State EState Emitter Parser Document.

(** ** Trees *)
Inductive tree :=
| TrAlias (name : str) (s e : mark)
| TrScalar (anchor tag : option str) (value : str) (pi qi : bool) (style : scalar_style) (s e : mark)
| TrSequence (anchor tag : option str) (implicit : bool) (style : seq_style) (s e : mark) (items : list tree) (s2 e2 : mark)
| TrMapping (anchor tag : option str) (implicit : bool) (style : map_style) (s e : mark) (pairs : list (tree * tree)) (s2 e2 : mark).

Fixpoint events_of_tree (t : tree) : list event :=
  match t with
  | TrAlias a s e => [Mk_event (EvAlias a) s e]
  | TrScalar an tg v pi qi st s e => [Mk_event (EvScalar an tg v pi qi st) s e]
  | TrSequence an tg im st s e l s2 e2 =>
      Mk_event (EvSequenceStart an tg im st) s e :: flat_map events_of_tree l ++ [Mk_event EvSequenceEnd s2 e2]
  | TrMapping an tg im st s e l s2 e2 =>
      Mk_event (EvMappingStart an tg im st) s e ::
        flat_map (fun '(k, v) => events_of_tree k ++ events_of_tree v) l ++ [Mk_event EvMappingEnd s2 e2]
  end.

(** ** The table of nodes.
    [anchors]: the anchors of the document so far, each with the number of its node and its mark. *)
Definition anchors_env := list (str * (Z * mark)).
Definition lookup (a : str) (env : anchors_env) : option (Z * mark) :=
  match find (fun x => str_eqb (fst x) a) env with Some x => Some (snd x) | None => None end.
Definition declare (a : option str) (k : Z) (m : mark) (env : anchors_env) : anchors_env + error :=
  match a with
  | None => inl env
  | Some a => match lookup a env with
              | Some (_, m') => inr (EComposer "found duplicate anchor; first occurrence" m' "second occurrence" m)
              | None => inl (env ++ [(a, (k, m))])
              end
  end.
(** The tag of a node: the default tag of its kind if the event has none, or the tag "!". *)
Definition node_tag (tag : option str) (default : str) : option str :=
  match tag with
  | None => Some default
  | Some t => if str_eqb t (lit "!") then Some default else Some t
  end.

(** [number env n t]: the tree [t] is read when the document has [n] nodes and the anchors [env].
    Its own nodes follow in the order of their first events; the result is these nodes, the anchors
    afterwards, and the number (from 1) of the node of [t] itself: for an alias, that of the node with
    that anchor. *)
Definition numbered (A : Type) := (list node * anchors_env * A + error)%type.
Definition number_list {A} (f : anchors_env -> Z -> A -> numbered Z) : anchors_env -> Z -> list A -> numbered (list Z) :=
  fix go env n l :=
    match l with
    | [] => inl ([], env, [])
    | x :: r =>
        match f env n x with
        | inr e => inr e
        | inl (ns, env1, k) =>
            match go env1 (n + Z.of_nat (length ns))%Z r with
            | inr e => inr e
            | inl (ns', env2, ks) => inl (ns ++ ns', env2, k :: ks)
            end
        end
    end.
Definition number_pairs {A} (f : anchors_env -> Z -> A -> numbered Z) : anchors_env -> Z -> list (A * A) -> numbered (list (Z * Z)) :=
  fix go env n l :=
    match l with
    | [] => inl ([], env, [])
    | (x, y) :: r =>
        match f env n x with
        | inr e => inr e
        | inl (ns, env1, k) =>
            match f env1 (n + Z.of_nat (length ns))%Z y with
            | inr e => inr e
            | inl (ns', env2, v) =>
                match go env2 (n + Z.of_nat (length ns) + Z.of_nat (length ns'))%Z r with
                | inr e => inr e
                | inl (ns'', env3, kvs) => inl (ns ++ ns' ++ ns'', env3, (k, v) :: kvs)
                end
            end
        end
    end.
Fixpoint number (env : anchors_env) (n : Z) (t : tree) {struct t} : numbered Z :=
  match t with
  | TrAlias a s _ =>
      match lookup a env with
      | Some (k, _) => inl ([], env, k)
      | None => inr (EComposer "" mark0 "found undefined alias" s)
      end
  | TrScalar an tg v _ _ st s e =>
      match declare an (n + 1)%Z s env with
      | inr x => inr x
      | inl env1 => inl ([Mk_node (NScalar v st) (node_tag tg STR_TAG) s e], env1, (n + 1)%Z)
      end
  | TrSequence an tg _ st s _ l _ e2 =>
      match declare an (n + 1)%Z s env with
      | inr x => inr x
      | inl env1 =>
          match number_list number env1 (n + 1)%Z l with
          | inr x => inr x
          | inl (ns, env2, ks) => inl (Mk_node (NSequence ks st) (node_tag tg SEQ_TAG) s e2 :: ns, env2, (n + 1)%Z)
          end
      end
  | TrMapping an tg _ st s _ l _ e2 =>
      match declare an (n + 1)%Z s env with
      | inr x => inr x
      | inl env1 =>
          match number_pairs number env1 (n + 1)%Z l with
          | inr x => inr x
          | inl (ns, env2, kvs) => inl (Mk_node (NMapping kvs st) (node_tag tg MAP_TAG) s e2 :: ns, env2, (n + 1)%Z)
          end
      end
  end.

(** [document_of evs d]: the events [evs] are those of one document, and [d] is that document. *)
Definition document_of (evs : list event) (d : document) : Prop :=
  exists vd tds si s0 e0 t ei s1 e1 env k,
    evs = Mk_event (EvDocumentStart vd tds si) s0 e0 :: events_of_tree t ++ [Mk_event (EvDocumentEnd ei) s1 e1] /\
    number [] 0 t = inl (d_nodes d, env, k) /\
    d = Mk_doc (d_nodes d) vd tds si ei s0 e1.

(** ** Structural soundness of a table of nodes *)
Definition sound_node (len : Z) (n : node) : Prop :=
  match n_data n with
  | NoNode => False
  | NScalar _ _ => True
  | NSequence items _ => Forall (fun i => 1 <= i <= len)%Z items
  | NMapping pairs _ => Forall (fun '(k, v) => (1 <= k <= len)%Z /\ (1 <= v <= len)%Z) pairs
  end.

(** ** Sessions *)
(** The document [load] returns at the end of the stream. *)
Definition no_document : document := Mk_doc [] None [] false false mark0 mark0.
(** [documents_from es ds]: the events [es], which follow STREAM-START, are those of the documents
    [ds]; at the end of the stream (and from then on) there are only empty documents. *)
Inductive documents_from : list event -> list document -> Prop :=
| DF_nil : documents_from [] []
| DF_doc g d es ds : document_of g d -> documents_from es ds -> documents_from (g ++ es) (d :: ds)
| DF_end e n : e_data e = EvStreamEnd -> documents_from [e] (repeat no_document (S n)).

(** ** Composer errors
    [es]: the events of the document before [ev], the event that is refused. *)
Inductive composer_error (es : list event) (ev : event) : error -> Prop :=
| CE_alias a : e_data ev = EvAlias a -> (forall e, In e es -> anchor_of (e_data e) <> Some a) ->
    composer_error es ev (EComposer "" mark0 "found undefined alias" (e_start ev))
| CE_anchor a e : anchor_of (e_data ev) = Some a -> In e es -> anchor_of (e_data e) = Some a ->
    composer_error es ev (EComposer "found duplicate anchor; first occurrence" (e_start e) "second occurrence" (e_start ev)).
(** The anchors of a document are used properly. *)
Definition anchors_used_properly (es : list event) : Prop :=
  NoDup (flat_map (fun e => opt_list (anchor_of (e_data e))) es) /\
  (forall l a e r, es = l ++ e :: r -> e_data e = EvAlias a -> exists e', In e' l /\ anchor_of (e_data e') = Some a).

(** ** Reading a table of nodes *)
(** The events that begin a node of their own. *)
Definition begins_node (e : event) : bool :=
  match e_data e with EvScalar _ _ _ _ _ _ | EvSequenceStart _ _ _ _ | EvMappingStart _ _ _ _ => true | _ => false end.
Definition node_starts (es : list event) : list event := filter begins_node es.
(** The [k]-th node of the document (from 1) carries the anchor [a]. *)
Definition carries (es : list event) (a : str) (k : Z) : Prop :=
  exists e, (1 <= k)%Z /\ nth_error (node_starts es) (Z.to_nat (k - 1)) = Some e /\ anchor_of (e_data e) = Some a.
(** The node [nd] is what the event [e] begins. *)
Definition describes (e : event) (nd : node) : Prop :=
  n_start nd = e_start e /\
  match e_data e, n_data nd with
  | EvScalar _ tg v _ _ st, Document.NScalar v' st' => v' = v /\ st' = st /\ n_tag nd = node_tag tg STR_TAG /\ n_end nd = e_end e
  | EvSequenceStart _ tg _ st, Document.NSequence _ st' => st' = st /\ n_tag nd = node_tag tg SEQ_TAG
  | EvMappingStart _ tg _ st, Document.NMapping _ st' => st' = st /\ n_tag nd = node_tag tg MAP_TAG
  | _, _ => False
  end.
(** [stands nodes es t k]: walking the table [nodes] of the document with the events [es] from its
    [k]-th node gives the tree [t]. *)
Definition kth_node (nodes : list node) (k : Z) : option node := if (1 <=? k)%Z then nth_error nodes (Z.to_nat (k - 1)) else None.
Inductive stands (nodes : list node) (es : list event) : tree -> Z -> Prop :=
| St_alias a s e k : carries es a k -> stands nodes es (TrAlias a s e) k
| St_scalar an tg v pi qi st s e k :
    kth_node nodes k = Some (Mk_node (Document.NScalar v st) (node_tag tg STR_TAG) s e) ->
    stands nodes es (TrScalar an tg v pi qi st s e) k
| St_sequence an tg im st s e l s2 e2 ks k :
    kth_node nodes k = Some (Mk_node (Document.NSequence ks st) (node_tag tg SEQ_TAG) s e2) ->
    stands_list nodes es l ks -> stands nodes es (TrSequence an tg im st s e l s2 e2) k
| St_mapping an tg im st s e l s2 e2 kvs k :
    kth_node nodes k = Some (Mk_node (Document.NMapping kvs st) (node_tag tg MAP_TAG) s e2) ->
    stands_pairs nodes es l kvs -> stands nodes es (TrMapping an tg im st s e l s2 e2) k
with stands_list (nodes : list node) (es : list event) : list tree -> list Z -> Prop :=
| SL_nil : stands_list nodes es [] []
| SL_cons t l k ks : stands nodes es t k -> stands_list nodes es l ks -> stands_list nodes es (t :: l) (k :: ks)
with stands_pairs (nodes : list node) (es : list event) : list (tree * tree) -> list (Z * Z) -> Prop :=
| SP_nil : stands_pairs nodes es [] []
| SP_cons t u l k v kvs : stands nodes es t k -> stands nodes es u v -> stands_pairs nodes es l kvs ->
    stands_pairs nodes es ((t, u) :: l) ((k, v) :: kvs).
