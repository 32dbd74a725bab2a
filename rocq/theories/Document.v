(** Document.v -- src/document.rs: documents, loading them from a parser and dumping them to an
    emitter.  Line numbers refer to src/document.rs. *)
From Verif Require Import Base Chars State Reader Scanner Parser EState Emitter.

(** 43-82 [NodeData], [NodeItem], [NodePair] (i32 modelled by Z) *)
Inductive node_data :=
| NoNode
| NScalar (value : str) (style : scalar_style)
| NSequence (items : list Z) (style : seq_style)
| NMapping (pairs : list (Z * Z)) (style : map_style).
(** 31-41 [Node] *)
Record node := Mk_node { n_data : node_data; n_tag : option str; n_start : mark; n_end : mark }.
Definition node_default : node := Mk_node NoNode None mark0 mark0.
(** 9-27 [Document] *)
Record document := Mk_doc {
  d_nodes : list node;
  d_version_directive : option version_directive;
  d_tag_directives : list tag_directive;
  d_start_implicit : bool; d_end_implicit : bool;
  d_start : mark; d_end : mark }.
Definition set_d_nodes (v : list node) (d : document) : document :=
  Mk_doc v (d_version_directive d) (d_tag_directives d) (d_start_implicit d) (d_end_implicit d) (d_start d) (d_end d).

(** 87-105 [Document::new] *)
Definition document_new (vd : option version_directive) (tds : list tag_directive) (si ei : bool) : document :=
  Mk_doc [] vd tds si ei mark0 mark0.

Definition doc_len (d : document) : Z := Z.of_nat (length (d_nodes d)).

(** 110-119 get_node_mut, get_node: [self.nodes.get(index as usize - 1)].  A negative index
    becomes a huge usize and gives None; index 0 overflows in the subtraction: a panic in
    debug builds, usize::MAX (hence None) in release builds. *)
Definition get_node (dbg : bool) (index : Z) (d : document) : res (option node) :=
  if (index =? 0)%Z then if dbg then Panic PSubOverflow else Ok None
  else match vec_index index with
       | Some n => Ok (nth_error (d_nodes d) n)
       | None => Ok None
       end.
(** 128-130 [get_root_node] *)
Definition get_root_node (d : document) : option node := nth_error (d_nodes d) 0.

(** 138-211 add_scalar, add_sequence, add_mapping: [self.nodes.len() as i32] is returned *)
Definition add_node (n : node) : M document Z := fun d =>
  (Ok (doc_len d + 1)%Z, set_d_nodes (d_nodes d ++ [n]) d).
Definition opt_or (o : option str) (x : str) : str := match o with Some v => v | None => x end.
Definition add_scalar (tag : option str) (value : str) (style : scalar_style) : M document Z :=
  add_node (Mk_node (NScalar value style) (Some (opt_or tag STR_TAG)) mark0 mark0).
Definition add_sequence (tag : option str) (style : seq_style) : M document Z :=
  add_node (Mk_node (NSequence [] style) (Some (opt_or tag SEQ_TAG)) mark0 mark0).
Definition add_mapping (tag : option str) (style : map_style) : M document Z :=
  add_node (Mk_node (NMapping [] style) (Some (opt_or tag MAP_TAG)) mark0 mark0).

Definition in_doc (index : Z) (d : document) : bool := ((0 <? index) && (index <=? doc_len d))%Z.
Definition node_at (index : Z) (d : document) : option node :=
  match vec_index index with Some n => nth_error (d_nodes d) n | None => None end.
Definition upd_node (index : Z) (f : node -> node) (d : document) : document :=
  match vec_index index with Some n => set_d_nodes (upd n f (d_nodes d)) d | None => d end.
Definition with_data (x : node_data) (n : node) : node := Mk_node x (n_tag n) (n_start n) (n_end n).
Definition with_end (m : mark) (n : node) : node := Mk_node (n_data n) (n_tag n) (n_start n) m.

(** 214-224 [append_sequence_item] *)
Definition append_sequence_item (sequence item : Z) : M document unit := fun d =>
  if negb (in_doc sequence d) then (Panic PAssert, d)
  else match node_at sequence d with
       | Some (Mk_node (NSequence items st) _ _ _) =>
           if negb (in_doc item d) then (Panic PAssert, d)
           else (Ok tt, upd_node sequence (with_data (NSequence (items ++ [item]) st)) d)
       | _ => (Panic PAssert, d)
       end.
(** 227-239 [yaml_document_append_mapping_pair] *)
Definition append_mapping_pair (mapping key value : Z) : M document unit := fun d =>
  if negb (in_doc mapping d) then (Panic PAssert, d)
  else match node_at mapping d with
       | Some (Mk_node (NMapping pairs st) _ _ _) =>
           if negb (in_doc key d) || negb (in_doc value d) then (Panic PAssert, d)
           else (Ok tt, upd_node mapping (with_data (NMapping (pairs ++ [(key, value)]) st)) d)
       | _ => (Panic PAssert, d)
       end.

(** Loading: the state is the parser, the document under construction and [ctx]. *)
Record lst := Mk_lst { l_parser : pst; l_doc : document; l_ctx : list Z }.
Definition on_parser {A} (m : M pst A) : M lst A := fun l =>
  match m (l_parser l) with (r, p) => (r, Mk_lst p (l_doc l) (l_ctx l)) end.
Definition set_l_doc (d : document) (l : lst) : lst := Mk_lst (l_parser l) d (l_ctx l).
Definition set_l_ctx (c : list Z) (l : lst) : lst := Mk_lst (l_parser l) (l_doc l) c.

(** 356-383 [register_anchor]; [index] is the index of the node just pushed *)
Definition register_anchor (index : Z) (anchor : option str) : M lst unit :=
  match anchor with
  | None => ret tt
  | Some a =>
      l <- get ;;
      match node_at index (l_doc l) with
      | None => panics PIndex
      | Some n =>
          match find (fun x => str_eqb (al_anchor x) a) (aliases (l_parser l)) with
          | Some x => fail (EComposer "found duplicate anchor; first occurrence" (al_mark x)
                                      "second occurrence" (n_start n))
          | None => on_parser (modify (fun p =>
                      set_aliases (aliases p ++ [Mk_alias a (Z.to_N index) (n_start n)]) p))
          end
      end
  end.

(** 385-412 [load_node_add] *)
Definition add_to_pairs (pairs : list (Z * Z)) (index : Z) : list (Z * Z) :=
  match last_opt pairs with
  | Some (k, 0%Z) => removelast pairs ++ [(k, index)]
  | _ => pairs ++ [(index, 0%Z)]
  end.
Definition load_node_add (index : Z) : M lst unit :=
  l <- get ;;
  match l_ctx l with
  | [] => ret tt
  | parent :: _ =>
      match node_at parent (l_doc l) with
      | None => panics PIndex
      | Some n =>
          match n_data n with
          | NSequence items st =>
              modify (fun l => set_l_doc (upd_node parent (with_data (NSequence (items ++ [index]) st)) (l_doc l)) l)
          | NMapping pairs st =>
              modify (fun l => set_l_doc (upd_node parent (with_data (NMapping (add_to_pairs pairs index) st)) (l_doc l)) l)
          | _ => panics PDocParent
          end
      end
  end.

(** 414-432 [load_alias] *)
Definition load_alias (anchor : str) (m : mark) : M lst unit :=
  l <- get ;;
  match find (fun x => str_eqb (al_anchor x) anchor) (aliases (l_parser l)) with
  | Some x => load_node_add (Z.of_N (al_index x))
  | None => fail (EComposer "" mark0 "found undefined alias" m)
  end.

(** 446-448, 479-481, 533-535: the tag of a loaded node *)
Definition loaded_tag (tag : option str) (default : str) : option str :=
  if is_none tag || opt_is tag (lit "!") then Some default else tag.
(** The common part of load_scalar (434-459), load_sequence (461-499) and load_mapping
    (515-551): push the node, register its anchor, attach it to its parent. *)
Definition load_push (n : node) (anchor : option str) : M lst Z :=
  l <- get ;;
  let index := (doc_len (l_doc l) + 1)%Z in
  modify (fun l => set_l_doc (set_d_nodes (d_nodes (l_doc l) ++ [n]) (l_doc l)) l) ;;
  register_anchor index anchor ;;
  load_node_add index ;;
  ret index.
Definition push_ctx (i : Z) : M lst unit := modify (fun l => set_l_ctx (i :: l_ctx l) l).

(** 501-513 [load_sequence_end], 553-565 [load_mapping_end] *)
Definition load_end (seq : bool) (m : mark) : M lst unit :=
  l <- get ;;
  match l_ctx l with
  | [] => panics (if seq then PSeqEnd else PMapEnd)
  | index :: r =>
      match node_at index (l_doc l) with
      | None => panics PIndex
      | Some n =>
          match n_data n, seq with
          | NSequence _ _, true | NMapping _ _, false =>
              modify (fun l => set_l_ctx r (set_l_doc (upd_node index (with_end m) (l_doc l)) l))
          | _, _ => panics (if seq then PSeqEnd else PMapEnd)
          end
      end
  end.

(** 322-349: what the loop of [load_nodes] does with one event; the result says whether the
    document is finished. *)
Definition load_event (e : event) : M lst (option (bool * mark)) :=
  match e_data e with
  | EvStreamStart _ | EvStreamEnd | EvDocumentStart _ _ _ => panics PUnexpectedEvent
  | EvDocumentEnd implicit => ret (Some (implicit, e_end e))
  | EvAlias a => load_alias a (e_start e) ;; ret None
  | EvScalar anchor tag value _ _ style =>
      load_push (Mk_node (NScalar value style) (loaded_tag tag STR_TAG) (e_start e) (e_end e)) anchor ;;
      ret None
  | EvSequenceStart anchor tag _ style =>
      i <- load_push (Mk_node (NSequence [] style) (loaded_tag tag SEQ_TAG) (e_start e) (e_end e)) anchor ;;
      push_ctx i ;; ret None
  | EvSequenceEnd => load_end true (e_end e) ;; ret None
  | EvMappingStart anchor tag _ style =>
      i <- load_push (Mk_node (NMapping [] style) (loaded_tag tag MAP_TAG) (e_start e) (e_end e)) anchor ;;
      push_ctx i ;; ret None
  | EvMappingEnd => load_end false (e_end e) ;; ret None
  end.

(** Iteration budget of [load_nodes]: more than the number of events the parser can still
    produce before the end of the document. *)
Definition load_budget (p : pst) : nat := (16 * tok_budget p + 16)%nat.

(** 316-354 [load_nodes] *)
Definition load_nodes : M lst unit :=
  '(implicit, m) <- (fun l => loopM (load_budget (l_parser l)) (fun _ : unit =>
     e <- on_parser parse ;;
     o <- load_event e ;;
     match o with
     | Some x => ret (inr x)
     | None => ret (inl tt)
     end) tt l) ;;
  modify (fun l => let d := l_doc l in
    set_l_doc (Mk_doc (d_nodes d) (d_version_directive d) (d_tag_directives d) (d_start_implicit d)
                      implicit (d_start d) m) l).

(** 292-314 [load_document] *)
Definition load_document (e : event) : M lst unit :=
  match e_data e with
  | EvDocumentStart vd tds implicit =>
      modify (fun l => set_l_doc (Mk_doc (d_nodes (l_doc l)) vd tds implicit (d_end_implicit (l_doc l))
                                         (e_start e) (d_end (l_doc l))) l) ;;
      load_nodes
  | _ => panics PExpectedDocumentStart
  end.

(** 251-290 [load], with [parser.inner.delete_aliases()] on the paths where the source has it *)
Definition delete_aliases (p : pst) : pst := set_aliases [] p.
Definition finish (r : res document * pst) : res document * pst :=
  match r with (r, p) => (r, delete_aliases p) end.
(** 268-289: the stream has been started *)
Definition load_rest : M pst document := fun p =>
  if stream_end_produced (sc p) then (Ok (document_new None [] false false), p)
  else
    match parse p with
    | (Ok e, p1) =>
        match e_data e with
        | EvStreamEnd => (Ok (document_new None [] false false), p1)
        | _ =>
            match load_document e (Mk_lst p1 (document_new None [] false false) []) with
            | (Ok _, l) => finish (Ok (l_doc l), l_parser l)
            | (Err x, l) => finish (Err x, l_parser l)
            | (Panic x, l) => (Panic x, l_parser l)
            | (Fuel, l) => (Fuel, l_parser l)
            end
        end
    | (Err x, p1) => finish (Err x, p1)
    | (Panic x, p1) => (Panic x, p1)
    | (Fuel, p1) => (Fuel, p1)
    end.
Definition load : M pst document := fun p =>
  if stream_start_produced (sc p) then load_rest p
  else match parse p with
       | (Ok e, p1) => match e_data e with
                       | EvStreamStart _ => load_rest p1
                       | _ => (Panic PExpectedStreamStart, p1)
                       end
       | (Err x, p1) => finish (Err x, p1)
       | (Panic x, p1) => (Panic x, p1)
       | (Fuel, p1) => (Fuel, p1)
       end.

(** Dumping.  The document is consumed: [dump_node] takes the nodes out of it one by one, so the
    state of the dump is the emitter and the nodes that are left. *)
Record dst := Mk_dst { ds_em : est; ds_nodes : list node }.
Definition on_em {A} (m : M est A) : M dst A := fun d =>
  match m (ds_em d) with (r, s) => (r, Mk_dst s (ds_nodes d)) end.

Fixpoint iterD {S A} (f : A -> M S unit) (l : list A) : M S unit :=
  match l with [] => ret tt | x :: r => f x ;; iterD f r end.

(** 602-624 [anchor_node] (called on the root only) *)
Definition anchor_node (nodes : list node) (index : Z) : M est unit :=
  match vec_index index with
  | None => panics PIndex
  | Some k =>
      match nth_error nodes k with
      | None => panics PIndex
      | Some n =>
          a <- get_anchors index ;;
          let refs := (an_references a + 1)%Z in
          put_anchors index (Mk_anchors refs (an_anchor a) (an_serialized a)) ;;
          if (refs =? 1)%Z then
            match n_data n with
            | NSequence items _ => iterD anchor_node_sub items
            | NMapping pairs _ => iterD (fun p => anchor_node_sub (fst p) ;; anchor_node_sub (snd p)) pairs
            | _ => ret tt
            end
          else if (refs =? 2)%Z then
            s <- get ;;
            let id := (em_last_anchor_id s + 1)%Z in
            modify (set_em_last_anchor_id id) ;;
            put_anchors index (Mk_anchors refs id (an_serialized a))
          else ret tt
      end
  end.

Definition emit_data (x : event_data) : M dst unit := on_em (emit (event_new x)).

(** 626-646 [dump_node], 648-651 [dump_alias], 653-670 [dump_scalar], 672-697 [dump_sequence],
    699-725 [dump_mapping].  Recursion depth: a node is marked serialized before its children are
    visited, so the depth is at most the number of nodes. *)
Fixpoint dump_node (fuel : nat) (index : Z) : M dst unit :=
  match fuel with
  | O => fun d => (Fuel, d)
  | S fuel' =>
      if negb (0 <? index)%Z then panics PAssert
      else
        d <- get ;;
        match nth_error (ds_nodes d) (Z.to_nat (index - 1)) with
        | None => panics PIndex
        | Some n =>
            a <- on_em (get_anchors index) ;;
            let anchor := if (an_anchor a =? 0)%Z then None else Some (generate_anchor (an_anchor a)) in
            if an_serialized a then
              match anchor with
              | None => panics PAliasUnwrap
              | Some x => emit_data (EvAlias x)
              end
            else
              on_em (put_anchors index (Mk_anchors (an_references a) (an_anchor a) true)) ;;
              modify (fun d => Mk_dst (ds_em d) (upd (Z.to_nat (index - 1)) (fun _ => node_default) (ds_nodes d))) ;;
              match n_data n with
              | NScalar value style =>
                  let imp := opt_is (n_tag n) STR_TAG in
                  emit_data (EvScalar anchor (n_tag n) value imp imp style)
              | NSequence items style =>
                  emit_data (EvSequenceStart anchor (n_tag n) (opt_is (n_tag n) SEQ_TAG) style) ;;
                  iterD (dump_node fuel') items ;;
                  emit_data EvSequenceEnd
              | NMapping pairs style =>
                  emit_data (EvMappingStart anchor (n_tag n) (opt_is (n_tag n) MAP_TAG) style) ;;
                  iterD (fun p => dump_node fuel' (fst p) ;; dump_node fuel' (snd p)) pairs ;;
                  emit_data EvMappingEnd
              | NoNode => panics PUnreachable
              end
        end
  end.

(** 571-600 [dump] *)
Definition run_dump (nodes : list node) (m : M dst unit) : M est unit := fun s =>
  match m (Mk_dst s nodes) with (r, d) => (r, ds_em d) end.
Definition dump (d : document) : M est unit :=
  s <- get ;;
  (if em_opened s then ret tt
   else fun s => match emitter_open s with
                 | (Err x, s') => (reset_anchors ;; fail x) s'
                 | r => r
                 end) ;;
  (if is_empty (d_nodes d) then emitter_close
   else
     modify (set_em_anchors (repeat anchors_default (length (d_nodes d)))) ;;
     emit (event_new (EvDocumentStart (d_version_directive d) (d_tag_directives d) (d_start_implicit d))) ;;
     anchor_node (d_nodes d) 1 ;;
     run_dump (d_nodes d) (dump_node (S (length (d_nodes d))) 1) ;;
     emit (event_new (EvDocumentEnd (d_end_implicit d)))) ;;
  reset_anchors.
