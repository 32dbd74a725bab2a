(** Spec_Events.v -- the YAML event grammar, and what the tokens consumed by a call say about the
    event it returns.  Nothing here refers to the parser. *)
From Verif Require Import Base.

(** ** The grammar of event streams
    stream   ::= STREAM-START document* STREAM-END
    document ::= DOCUMENT-START node DOCUMENT-END
    node     ::= ALIAS | SCALAR | SEQUENCE-START node* SEQUENCE-END
                 | MAPPING-START (node node)* MAPPING-END *)
Inductive node_events : list event_data -> Prop :=
| NAlias a : node_events [EvAlias a]
| NScalar a t v p q st : node_events [EvScalar a t v p q st]
| NSequence a t i st l : nodes_events l -> node_events (EvSequenceStart a t i st :: l ++ [EvSequenceEnd])
| NMapping a t i st l : pairs_events l -> node_events (EvMappingStart a t i st :: l ++ [EvMappingEnd])
with nodes_events : list event_data -> Prop :=
| NNil : nodes_events []
| NCons n l : node_events n -> nodes_events l -> nodes_events (n ++ l)
with pairs_events : list event_data -> Prop :=
| PNil : pairs_events []
| PCons k v l : node_events k -> node_events v -> pairs_events l -> pairs_events (k ++ v ++ l).

Inductive documents_events : list event_data -> Prop :=
| DNil : documents_events []
| DCons vd tds i n j l : node_events n -> documents_events l ->
    documents_events (EvDocumentStart vd tds i :: n ++ EvDocumentEnd j :: l).

Definition stream_events (l : list event_data) : Prop :=
  exists e docs, documents_events docs /\ l = EvStreamStart e :: docs ++ [EvStreamEnd].

(** ** What tokens carry *)
Definition anchors (ts : list token) : list str :=
  flat_map (fun t => match t_data t with TAnchor a => [a] | _ => [] end) ts.
Definition aliases_in (ts : list token) : list str :=
  flat_map (fun t => match t_data t with TAlias a => [a] | _ => [] end) ts.
Definition tags (ts : list token) : list (str * str) :=
  flat_map (fun t => match t_data t with TTag h s => [(h, s)] | _ => [] end) ts.
Definition scalars (ts : list token) : list (str * scalar_style) :=
  flat_map (fun t => match t_data t with TScalar v st => [(v, st)] | _ => [] end) ts.
Definition versions (ts : list token) : list version_directive :=
  flat_map (fun t => match t_data t with TVersionDirective a b => [Mk_vd a b] | _ => [] end) ts.
Definition tag_dirs (ts : list token) : list tag_directive :=
  flat_map (fun t => match t_data t with TTagDirective h p => [Mk_td h p] | _ => [] end) ts.
Definition doc_starts (ts : list token) : nat :=
  length (filter (fun t => match t_data t with TDocumentStart => true | _ => false end) ts).

(** ** What events carry *)
Definition anchor_of (d : event_data) : option str :=
  match d with
  | EvScalar a _ _ _ _ _ | EvSequenceStart a _ _ _ | EvMappingStart a _ _ _ => a
  | _ => None
  end.
Definition tag_of (d : event_data) : option str :=
  match d with
  | EvScalar _ t _ _ _ _ | EvSequenceStart _ t _ _ | EvMappingStart _ t _ _ => t
  | _ => None
  end.
Definition opt_list {A} (o : option A) : list A := match o with Some a => [a] | None => [] end.

(** The tag written with handle [h] and suffix [s] in a document with the directives [ds]: a
    verbatim tag has no handle; otherwise the prefix of the handle, from the directives of the
    document or else from the defaults for "!" and "!!". *)
Definition handle_is (h : str) (d : tag_directive) : bool := str_eqb (td_handle d) h.
Definition resolved (ds : list tag_directive) (h s : str) : option str :=
  if is_empty h then Some s
  else match find (handle_is h) (ds ++ default_tag_directives) with
       | Some d => Some (td_prefix d ++ s)
       | None => None
       end.

(** [explains ds ts d]: in a document with the %TAG directives [ds], the event [d] carries exactly
    what the tokens [ts] say. *)
Record explains (ds : list tag_directive) (ts : list token) (d : event_data) : Prop := {
  ex_anchor : anchors ts = opt_list (anchor_of d);
  ex_alias : aliases_in ts = match d with EvAlias a => [a] | _ => [] end;
  ex_tag : match tags ts with
           | [] => tag_of d = None
           | [(h, s)] => tag_of d = resolved ds h s /\ tag_of d <> None
           | _ => False
           end;
  ex_scalar : match d with
              | EvScalar _ t v pi qi st =>
                  (scalars ts = [(v, st)]
                   /\ (pi = true <-> st = SPlain /\ t = None \/ t = Some (lit "!"))
                   /\ (qi = true <-> st <> SPlain /\ t = None))
                  \/ (scalars ts = [] /\ v = [] /\ st = SPlain /\ (pi = true <-> t = None) /\ qi = false)
              | EvSequenceStart _ t i _ | EvMappingStart _ t i _ => scalars ts = [] /\ (i = true <-> t = None)
              | _ => scalars ts = []
              end;
  ex_version : versions ts = match d with EvDocumentStart vd _ _ => opt_list vd | _ => [] end;
  ex_dirs : tag_dirs ts = match d with EvDocumentStart _ tds _ => tds | _ => [] end;
  ex_start : match d with
             | EvDocumentStart _ _ i => doc_starts ts = if i then 0%nat else 1%nat
             | _ => doc_starts ts = 0%nat
             end;
  ex_stream : match d with
              | EvStreamStart e => exists t, ts = [t] /\ t_data t = TStreamStart e
              | _ => Forall (fun t => match t_data t with TStreamStart _ => False | _ => True end) ts
              end }.

(** The directives in force after an event. *)
Definition directives_after (ds : list tag_directive) (d : event_data) : list tag_directive :=
  match d with
  | EvDocumentStart _ tds _ => tds
  | EvDocumentEnd _ => []
  | _ => ds
  end.
Fixpoint explained (ds : list tag_directive) (tss : list (list token)) (es : list event_data) : Prop :=
  match tss, es with
  | [], [] => True
  | ts :: tss', d :: es' => explains ds ts d /\ explained (directives_after ds d) tss' es'
  | _, _ => False
  end.
