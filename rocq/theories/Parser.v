(** Parser.v -- src/parser.rs: from tokens to events.

    Line numbers refer to src/parser.rs.  [core::mem::take] of a field of the front token is
    modelled where the token can stay in the queue afterwards (process_directives); elsewhere
    the token is skipped in the same call. *)
From Verif Require Import Base Chars State Reader Scanner.

(** 52-104 [ParserState] *)
Inductive pstate :=
| PStreamStart | PImplicitDocumentStart | PDocumentStart | PDocumentContent | PDocumentEnd
| PBlockNode | PBlockNodeOrIndentlessSequence | PFlowNode
| PBlockSequenceFirstEntry | PBlockSequenceEntry | PIndentlessSequenceEntry
| PBlockMappingFirstKey | PBlockMappingKey | PBlockMappingValue
| PFlowSequenceFirstEntry | PFlowSequenceEntry | PFlowSequenceEntryMappingKey
| PFlowSequenceEntryMappingValue | PFlowSequenceEntryMappingEnd
| PFlowMappingFirstKey | PFlowMappingKey | PFlowMappingValue | PFlowMappingEmptyValue
| PEnd.

(** 107-116 [AliasData] *)
Record alias_data := Mk_alias { al_anchor : str; al_index : N; al_mark : mark }.

(** 11-30 [Parser], [ParserInner] *)
Record pst := Mk_pst {
  sc : sst;
  states : list pstate;
  state : pstate;
  marks : list mark;
  tag_directives : list tag_directive;
  aliases : list alias_data
}.
Definition set_sc (v : sst) (p : pst) := Mk_pst v (states p) (state p) (marks p) (tag_directives p) (aliases p).
Definition set_states (v : list pstate) (p : pst) := Mk_pst (sc p) v (state p) (marks p) (tag_directives p) (aliases p).
Definition set_state (v : pstate) (p : pst) := Mk_pst (sc p) (states p) v (marks p) (tag_directives p) (aliases p).
Definition set_marks (v : list mark) (p : pst) := Mk_pst (sc p) (states p) (state p) v (tag_directives p) (aliases p).
Definition set_tag_directives (v : list tag_directive) (p : pst) := Mk_pst (sc p) (states p) (state p) (marks p) v (aliases p).
Definition set_aliases (v : list alias_data) (p : pst) := Mk_pst (sc p) (states p) (state p) (marks p) (tag_directives p) v.

(** 133-144 [Parser::new] *)
Definition parser_new (dbg : bool) : pst := Mk_pst (scanner_new dbg) [] PStreamStart [] [] [].

(** Run a scanner method on [self.scanner]. *)
Definition on_sc {A} (m : M sst A) : M pst A := fun p =>
  match m (sc p) with (r, s') => (r, set_sc s' p) end.

(** 147-156 [Parser::reset] *)
Definition parser_reset : M pst unit :=
  on_sc scanner_reset ;;
  modify (fun p => Mk_pst (sc p) [] PStreamStart [] [] []).

(** 161-163, 168-175 set_input_string, set_input, set_encoding *)
Definition parser_set_input (i : source) : M pst unit := on_sc (set_input i).
Definition parser_set_encoding (e : encoding) : M pst unit := on_sc (set_encoding e).

Definition ppeek : M pst token := on_sc peek.
Definition pskip : M pst unit := on_sc skip_token.

(** [self.inner.states.push(..)], [self.inner.state = self.inner.states.pop().unwrap()] *)
Definition push_state (x : pstate) : M pst unit := modify (fun p => set_states (x :: states p) p).
Definition goto (x : pstate) : M pst unit := modify (set_state x).
Definition pop_state : M pst unit := fun p =>
  match states p with
  | [] => (Panic PStatesEmpty, p)
  | x :: r => (Ok tt, set_state x (set_states r p))
  end.
Definition push_mark (m : mark) : M pst unit := modify (fun p => set_marks (m :: marks p) p).
(** [self.inner.marks.pop().unwrap()] and [let _ = self.inner.marks.pop()] *)
Definition pop_mark : M pst mark := fun p =>
  match marks p with
  | [] => (Panic PMarksEmpty, p)
  | x :: r => (Ok x, set_marks r p)
  end.
Definition drop_mark : M pst unit := modify (fun p => set_marks (tl (marks p)) p).

(** 889-902 [process_empty_scalar] *)
Definition empty_scalar (m : mark) : event := Mk_event (EvScalar None None [] true false SPlain) m m.

(** 996-1017 [append_tag_directive] *)
Definition append_tag_directive (value : tag_directive) (allow_duplicates : bool) (m : mark) : M pst unit :=
  p <- get ;;
  if existsb (fun t => str_eqb (td_handle value) (td_handle t)) (tag_directives p) then
    if allow_duplicates then ret tt
    else fail (EParser "" mark0 "found duplicate %TAG directive" m)
  else modify (fun p => set_tag_directives (tag_directives p ++ [value]) p).

(** Iteration budget of the loops over directive and document-end tokens: each iteration
    removes a token; tokens already queued plus (a bound of) those the remaining input and
    the open indentation levels can still give. *)
Definition tok_budget (p : pst) : nat :=
  (length (tokens (sc p)) + 8 * meas (sc p) + length (indents (sc p)) + 9)%nat.

(** 924-969: the loop of [process_directives] *)
Definition directives_loop : M pst (option version_directive * list tag_directive) := fun p =>
  loopM (tok_budget p) (fun '(vd, tds) =>
    t <- ppeek ;;
    match t_data t with
    | TVersionDirective major minor =>
        match vd with
        | Some _ => fail (EParser "" mark0 "found duplicate %YAML directive" (t_start t))
        | None =>
            if negb (major =? 1)%Z || negb (minor =? 1)%Z && negb (minor =? 2)%Z then
              fail (EParser "" mark0 "found incompatible YAML document" (t_start t))
            else pskip ;; ret (inl (Some (Mk_vd major minor), tds))
        end
    | TTagDirective handle prefix =>
        on_sc (set_front (TTagDirective [] [])) ;;
        append_tag_directive (Mk_td handle prefix) false (t_start t) ;;
        pskip ;; ret (inl (vd, tds ++ [Mk_td handle prefix]))
    | _ => ret (inr (vd, tds))
    end) (None, []) p.

(** 904-992 [process_directives] *)
Definition process_directives : M pst (option version_directive * list tag_directive) :=
  r <- directives_loop ;;
  t <- ppeek ;;
  append_tag_directive (Mk_td (lit "!") (lit "!")) true (t_start t) ;;
  append_tag_directive (Mk_td (lit "!!") (lit "tag:yaml.org,2002:")) true (t_start t) ;;
  ret r.

(** 230-253 [parse_stream_start] *)
Definition parse_stream_start : M pst event :=
  t <- ppeek ;;
  match t_data t with
  | TStreamStart e =>
      goto PImplicitDocumentStart ;; pskip ;;
      ret (Mk_event (EvStreamStart e) (t_start t) (t_end t))
  | _ => fail (EParser "" mark0 "did not find expected <stream-start>" (t_start t))
  end.

(** 261-264: [while let TokenData::DocumentEnd] *)
Definition skip_document_ends : M pst unit := fun p =>
  loopM (tok_budget p) (fun _ : unit =>
    t <- ppeek ;;
    match t_data t with
    | TDocumentEnd => pskip ;; ret (inl tt)
    | _ => ret (inr tt)
    end) tt p.

Definition is_directive_or_boundary (d : token_data) : bool :=
  match d with
  | TVersionDirective _ _ | TTagDirective _ _ | TDocumentStart | TStreamEnd => true
  | _ => false
  end.

(** 255-326 [parse_document_start] *)
Definition parse_document_start (implicit : bool) : M pst event :=
  (if implicit then ret tt else skip_document_ends) ;;
  t <- ppeek ;;
  if implicit && negb (is_directive_or_boundary (t_data t)) then
    process_directives ;;
    push_state PDocumentEnd ;; goto PBlockNode ;;
    ret (Mk_event (EvDocumentStart None [] true) (t_start t) (t_end t))
  else if negb (is_stream_end t) then
    '(vd, tds) <- process_directives ;;
    t' <- ppeek ;;
    match t_data t' with
    | TDocumentStart =>
        push_state PDocumentEnd ;; goto PDocumentContent ;; pskip ;;
        ret (Mk_event (EvDocumentStart vd tds false) (t_start t) (t_end t'))
    | _ => fail (EParser "" mark0 "did not find expected <document start>" (t_start t'))
    end
  else
    goto PEnd ;; pskip ;;
    ret (Mk_event EvStreamEnd (t_start t) (t_end t)).

(** 396-420: the properties (anchor, tag) of a node.  Returns anchor, (handle, suffix),
    start_mark, end_mark, tag_mark. *)
Definition parse_properties (t : token)
  : M pst (option str * option (str * str) * mark * mark * mark) :=
  match t_data t with
  | TAnchor a =>
      pskip ;;
      t2 <- ppeek ;;
      match t_data t2 with
      | TTag h sf => pskip ;; ret (Some a, Some (h, sf), t_start t, t_end t2, t_start t2)
      | _ => ret (Some a, None, t_start t, t_end t, mark0)
      end
  | TTag h sf =>
      pskip ;;
      t2 <- ppeek ;;
      match t_data t2 with
      | TAnchor a => pskip ;; ret (Some a, Some (h, sf), t_start t, t_end t2, t_start t)
      | _ => ret (None, Some (h, sf), t_start t, t_end t, t_start t)
      end
  | _ => ret (None, None, t_start t, t_start t, mark0)
  end.

(** 422-441: resolution of the tag handle *)
Definition find_handle (h : str) (tds : list tag_directive) : option tag_directive :=
  find (fun t => str_eqb (td_handle t) h) tds.
Definition resolve_tag (tag : option (str * str)) (start_mark tag_mark : mark) : M pst (option str) :=
  p <- get ;;
  match tag with
  | None => ret None
  | Some (h, sf) =>
      if is_empty h then ret (Some sf)
      else match find_handle h (tag_directives p) with
           | Some td => ret (Some (td_prefix td ++ sf))
           | None => fail (EParser "while parsing a node" start_mark "found undefined tag handle" tag_mark)
           end
  end.

Definition opt_is (o : option str) (s : str) : bool :=
  match o with Some x => str_eqb x s | None => false end.
Definition is_none {A} (o : option A) : bool := match o with None => true | Some _ => false end.

(** 396-569: a node that is not an alias; [t] is its first token *)
Definition parse_node_content (block indentless_sequence : bool) (t : token) : M pst event :=
  '(anchor, htag, start_mark, end_mark, tag_mark) <- parse_properties t ;;
  tag <- resolve_tag htag start_mark tag_mark ;;
  t <- ppeek ;;
  let implicit := is_none tag || opt_is tag [] in
  let fallback : M pst event :=
    if negb (is_none anchor) || negb (is_none tag) then
      pop_state ;;
      ret (Mk_event (EvScalar anchor tag [] implicit false SPlain) start_mark end_mark)
    else
      fail (EParser (if block then "while parsing a block node" else "while parsing a flow node")%string
                    start_mark "did not find expected node content" (t_start t)) in
  match t_data t with
  | TBlockEntry =>
      if indentless_sequence then
        goto PIndentlessSequenceEntry ;;
        ret (Mk_event (EvSequenceStart anchor tag implicit SeqBlock) start_mark (t_end t))
      else fallback
  | TScalar value style =>
      let plain_implicit := style_eqb style SPlain && is_none tag || opt_is tag (lit "!") in
      let quoted_implicit := negb plain_implicit && is_none tag in
      pop_state ;; pskip ;;
      ret (Mk_event (EvScalar anchor tag value plain_implicit quoted_implicit style) start_mark (t_end t))
  | TFlowSequenceStart =>
      goto PFlowSequenceFirstEntry ;;
      ret (Mk_event (EvSequenceStart anchor tag implicit SeqFlow) start_mark (t_end t))
  | TFlowMappingStart =>
      goto PFlowMappingFirstKey ;;
      ret (Mk_event (EvMappingStart anchor tag implicit MapFlow) start_mark (t_end t))
  | TBlockSequenceStart =>
      if block then
        goto PBlockSequenceFirstEntry ;;
        ret (Mk_event (EvSequenceStart anchor tag implicit SeqBlock) start_mark (t_end t))
      else fallback
  | TBlockMappingStart =>
      if block then
        goto PBlockMappingFirstKey ;;
        ret (Mk_event (EvMappingStart anchor tag implicit MapBlock) start_mark (t_end t))
      else fallback
  | _ => fallback
  end.

(** 364-569 [parse_node] *)
Definition parse_node (block indentless_sequence : bool) : M pst event :=
  t <- ppeek ;;
  match t_data t with
  | TAlias a =>
      pop_state ;; pskip ;; ret (Mk_event (EvAlias a) (t_start t) (t_end t))
  | _ => parse_node_content block indentless_sequence t
  end.

(** 328-342 [parse_document_content] *)
Definition parse_document_content : M pst event :=
  t <- ppeek ;;
  match t_data t with
  | TVersionDirective _ _ | TTagDirective _ _ | TDocumentStart | TDocumentEnd | TStreamEnd =>
      pop_state ;; ret (empty_scalar (t_start t))
  | _ => parse_node true false
  end.

(** 344-362 [parse_document_end] *)
Definition parse_document_end : M pst event :=
  t <- ppeek ;;
  '(end_mark, implicit) <-
    match t_data t with
    | TDocumentEnd => pskip ;; ret (t_end t, false)
    | _ => ret (t_start t, true)
    end ;;
  modify (fun p => set_state PDocumentStart (set_tag_directives [] p)) ;;
  ret (Mk_event (EvDocumentEnd implicit) (t_start t) end_mark).

(** The common prologue of the first-entry states (572-577, 643-648, 711-716, 816-821) *)
Definition enter_collection (first : bool) : M pst unit :=
  if first then t <- ppeek ;; push_mark (t_start t) ;; pskip else ret tt.
(** The common epilogue (591-600, 665-674, 754-762, 858-866) *)
Definition leave_collection (d : event_data) (t : token) : M pst event :=
  pop_state ;; drop_mark ;; pskip ;; ret (Mk_event d (t_start t) (t_end t)).
Definition collection_error (context problem : string) (t : token) : M pst event :=
  m <- pop_mark ;; fail (EParser context m problem (t_start t)).

(** 571-612 [parse_block_sequence_entry] *)
Definition parse_block_sequence_entry (first : bool) : M pst event :=
  enter_collection first ;;
  t <- ppeek ;;
  match t_data t with
  | TBlockEntry =>
      pskip ;;
      t2 <- ppeek ;;
      match t_data t2 with
      | TBlockEntry | TBlockEnd => goto PBlockSequenceEntry ;; ret (empty_scalar (t_end t))
      | _ => push_state PBlockSequenceEntry ;; parse_node true false
      end
  | TBlockEnd => leave_collection EvSequenceEnd t
  | _ => collection_error "while parsing a block collection" "did not find expected '-' indicator" t
  end.

(** 614-640 [parse_indentless_sequence_entry] *)
Definition parse_indentless_sequence_entry : M pst event :=
  t <- ppeek ;;
  match t_data t with
  | TBlockEntry =>
      pskip ;;
      t2 <- ppeek ;;
      match t_data t2 with
      | TBlockEntry | TKey | TValue | TBlockEnd =>
          goto PIndentlessSequenceEntry ;; ret (empty_scalar (t_end t))
      | _ => push_state PIndentlessSequenceEntry ;; parse_node true false
      end
  | _ => pop_state ;; ret (Mk_event EvSequenceEnd (t_start t) (t_end t))
  end.

(** 642-685 [parse_block_mapping_key] *)
Definition parse_block_mapping_key (first : bool) : M pst event :=
  enter_collection first ;;
  t <- ppeek ;;
  match t_data t with
  | TKey =>
      pskip ;;
      t2 <- ppeek ;;
      match t_data t2 with
      | TKey | TValue | TBlockEnd => goto PBlockMappingValue ;; ret (empty_scalar (t_end t))
      | _ => push_state PBlockMappingValue ;; parse_node true true
      end
  | TBlockEnd => leave_collection EvMappingEnd t
  | _ => collection_error "while parsing a block mapping" "did not find expected key" t
  end.

(** 687-708 [parse_block_mapping_value] *)
Definition parse_block_mapping_value : M pst event :=
  t <- ppeek ;;
  match t_data t with
  | TValue =>
      pskip ;;
      t2 <- ppeek ;;
      match t_data t2 with
      | TKey | TValue | TBlockEnd => goto PBlockMappingKey ;; ret (empty_scalar (t_end t))
      | _ => push_state PBlockMappingKey ;; parse_node true true
      end
  | _ => goto PBlockMappingKey ;; ret (empty_scalar (t_start t))
  end.

(** 720-734, 825-839: the ',' before every entry but the first *)
Definition flow_separator (first : bool) (context problem : string) (t : token) : M pst token :=
  if first then ret t
  else match t_data t with
       | TFlowEntry => pskip ;; ppeek
       | _ => m <- pop_mark ;; fail (EParser context m problem (t_start t))
       end.

(** 710-763 [parse_flow_sequence_entry] *)
Definition parse_flow_sequence_entry (first : bool) : M pst event :=
  enter_collection first ;;
  t <- ppeek ;;
  match t_data t with
  | TFlowSequenceEnd => leave_collection EvSequenceEnd t
  | _ =>
      t <- flow_separator first "while parsing a flow sequence" "did not find expected ',' or ']'" t ;;
      match t_data t with
      | TKey =>
          goto PFlowSequenceEntryMappingKey ;; pskip ;;
          ret (Mk_event (EvMappingStart None None true MapFlow) (t_start t) (t_end t))
      | TFlowSequenceEnd => leave_collection EvSequenceEnd t
      | _ => push_state PFlowSequenceEntry ;; parse_node false false
      end
  end.

(** 765-781 [parse_flow_sequence_entry_mapping_key] *)
Definition parse_flow_sequence_entry_mapping_key : M pst event :=
  t <- ppeek ;;
  match t_data t with
  | TValue | TFlowEntry | TFlowSequenceEnd =>
      pskip ;; goto PFlowSequenceEntryMappingValue ;; ret (empty_scalar (t_end t))
  | _ => push_state PFlowSequenceEntryMappingValue ;; parse_node false false
  end.

(** 783-801 [parse_flow_sequence_entry_mapping_value] *)
Definition parse_flow_sequence_entry_mapping_value : M pst event :=
  t <- ppeek ;;
  match t_data t with
  | TValue =>
      pskip ;;
      t <- ppeek ;;
      match t_data t with
      | TFlowEntry | TFlowSequenceEnd =>
          goto PFlowSequenceEntryMappingEnd ;; ret (empty_scalar (t_start t))
      | _ => push_state PFlowSequenceEntryMappingEnd ;; parse_node false false
      end
  | _ => goto PFlowSequenceEntryMappingEnd ;; ret (empty_scalar (t_start t))
  end.

(** 803-813 [parse_flow_sequence_entry_mapping_end] *)
Definition parse_flow_sequence_entry_mapping_end : M pst event :=
  t <- ppeek ;;
  goto PFlowSequenceEntry ;;
  ret (Mk_event EvMappingEnd (t_start t) (t_end t)).

(** 815-867 [parse_flow_mapping_key] *)
Definition parse_flow_mapping_key (first : bool) : M pst event :=
  enter_collection first ;;
  t <- ppeek ;;
  match t_data t with
  | TFlowMappingEnd => leave_collection EvMappingEnd t
  | _ =>
      t <- flow_separator first "while parsing a flow mapping" "did not find expected ',' or '}'" t ;;
      match t_data t with
      | TKey =>
          pskip ;;
          t <- ppeek ;;
          match t_data t with
          | TValue | TFlowEntry | TFlowMappingEnd =>
              goto PFlowMappingValue ;; ret (empty_scalar (t_start t))
          | _ => push_state PFlowMappingValue ;; parse_node false false
          end
      | TFlowMappingEnd => leave_collection EvMappingEnd t
      | _ => push_state PFlowMappingEmptyValue ;; parse_node false false
      end
  end.

(** 869-887 [parse_flow_mapping_value] *)
Definition parse_flow_mapping_value (empty : bool) : M pst event :=
  t <- ppeek ;;
  if empty then goto PFlowMappingKey ;; ret (empty_scalar (t_start t))
  else
    match t_data t with
    | TValue =>
        pskip ;;
        t <- ppeek ;;
        match t_data t with
        | TFlowEntry | TFlowMappingEnd => goto PFlowMappingKey ;; ret (empty_scalar (t_start t))
        | _ => push_state PFlowMappingKey ;; parse_node false false
        end
    | _ => goto PFlowMappingKey ;; ret (empty_scalar (t_start t))
    end.

(** 195-228 [state_machine] *)
Definition state_machine : M pst event :=
  p <- get ;;
  match state p with
  | PStreamStart => parse_stream_start
  | PImplicitDocumentStart => parse_document_start true
  | PDocumentStart => parse_document_start false
  | PDocumentContent => parse_document_content
  | PDocumentEnd => parse_document_end
  | PBlockNode => parse_node true false
  | PBlockNodeOrIndentlessSequence => parse_node true true
  | PFlowNode => parse_node false false
  | PBlockSequenceFirstEntry => parse_block_sequence_entry true
  | PBlockSequenceEntry => parse_block_sequence_entry false
  | PIndentlessSequenceEntry => parse_indentless_sequence_entry
  | PBlockMappingFirstKey => parse_block_mapping_key true
  | PBlockMappingKey => parse_block_mapping_key false
  | PBlockMappingValue => parse_block_mapping_value
  | PFlowSequenceFirstEntry => parse_flow_sequence_entry true
  | PFlowSequenceEntry => parse_flow_sequence_entry false
  | PFlowSequenceEntryMappingKey => parse_flow_sequence_entry_mapping_key
  | PFlowSequenceEntryMappingValue => parse_flow_sequence_entry_mapping_value
  | PFlowSequenceEntryMappingEnd => parse_flow_sequence_entry_mapping_end
  | PFlowMappingFirstKey => parse_flow_mapping_key true
  | PFlowMappingKey => parse_flow_mapping_key false
  | PFlowMappingValue => parse_flow_mapping_value false
  | PFlowMappingEmptyValue => parse_flow_mapping_value true
  | PEnd => panics PParserEnd
  end.

Definition at_end (p : pst) : bool :=
  stream_end_produced (sc p) || match state p with PEnd => true | _ => false end.

(** 188-193 [Parser::parse] *)
Definition parse : M pst event :=
  p <- get ;;
  if at_end p then ret (event_new EvStreamEnd) else state_machine.

(** 120-126 [Iterator::next] of the parser *)
Definition parser_next : M pst (option event) :=
  p <- get ;;
  if at_end p then ret None else e <- parse ;; ret (Some e).
