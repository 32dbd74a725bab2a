(** Scanner.v -- src/scanner.rs: from characters to tokens.

    Every definition models the function of the same name; line numbers refer to
    src/scanner.rs.  [mark.column as i32] is modelled without wrap-around. *)
From Verif Require Import Base Utf Chars State Reader.

(** [self.buffer.get(i)] *)
Definition bget (i : nat) (s : sst) : option char := nth_error (buffer s) i.
Definition bcol (s : sst) : Z := Z.of_N (m_col (pos s)).

Definition advance (n : N) (m : mark) : mark := Mk_mark (m_index m + n) (m_line m) (m_col m + 1).
Definition next_line (n : N) (m : mark) : mark := Mk_mark (m_index m + n) (m_line m + 1) 0.

(** 126-131 SKIP *)
Definition skip_char : M sst unit := fun s =>
  match buffer s with
  | [] => (Panic PSkipChar, s)
  | c :: b => (Ok tt, set_pos (advance (len_utf8 c) (pos s)) (set_buffer b s))
  end.

Fixpoint skip_chars (n : nat) : M sst unit :=
  match n with O => ret tt | S n' => skip_char ;; skip_chars n' end.

(** 134-149 SKIP_LINE *)
Definition skip_line_break : M sst unit := fun s =>
  match buffer s with
  | [] => (Ok tt, s)
  | c :: b =>
      if (c =? cCR) && chk cLF (nth_error b 0) then
        (Ok tt, set_pos (next_line 2 (pos s)) (set_buffer (skipn 2 (buffer s)) s))
      else if is_break_c c then
        (Ok tt, set_pos (next_line (len_utf8 c) (pos s)) (set_buffer b s))
      else (Ok tt, s)
  end.

(** 152-160 READ: returns the extended string *)
Definition read_char (string : str) : M sst str := fun s =>
  match buffer s with
  | [] => (Panic PReadChar, s)
  | c :: b => (Ok (string ++ [c]), set_pos (advance (len_utf8 c) (pos s)) (set_buffer b s))
  end.

(** 163-188 READ_LINE *)
Definition read_line_break (string : str) : M sst str := fun s =>
  match buffer s with
  | [] => (Panic PReadLineBreak, s)
  | c :: b =>
      if (c =? cCR) && chk cLF (nth_error b 0) then
        (Ok (string ++ [cLF]), set_pos (next_line 2 (pos s)) (set_buffer (skipn 2 (buffer s)) s))
      else if is_break_c c then
        (Ok (string ++ [if len_utf8 c =? 3 then c else cLF]),
         set_pos (next_line (len_utf8 c) (pos s)) (set_buffer b s))
      else (Ok string, s)
  end.

(** 271-278 *)
Definition scan_error {A} (context : string) (cm : mark) (problem : string) : M sst A :=
  m <- gets pos ;; fail (EScanner context cm problem m).

(** Recurring loop: [while cond { self.skip_char(); self.cache(1)?; }] (808-813, 815-818,
    864-870, 873-879, 933-936, 998-1001, 1340-1346, 1349-1355) *)
Definition skip_while (cond : sst -> bool) : M sst unit :=
  loop (fun _ : unit =>
    s <- get ;;
    if cond s then skip_char ;; cache 1 ;; ret (inl tt) else ret (inr tt)) tt.

(** Recurring loop: [while cond { self.read_char(&mut string); self.cache(1)?; }] (901-907,
    1026-1033, 1141-1147, 1409-1412) *)
Definition read_while (cond : sst -> bool) (string : str) : M sst str :=
  loop (fun string : str =>
    s <- get ;;
    if cond s then string' <- read_char string ;; cache 1 ;; ret (inl string')
    else ret (inr string)) string.

Definition push_token (d : token_data) (a b : mark) : M sst unit :=
  modify (fun s => set_tokens (tokens s ++ [Mk_token d a b]) s).

(** [self.tokens.insert(number.wrapping_sub(self.tokens_parsed), token)] *)
Definition insert_token (number : N) (t : token) : M sst unit := fun s =>
  if number <? tokens_parsed s then (Panic PTokenInsert, s)
  else
    let k := N.to_nat (number - tokens_parsed s) in
    if Nat.leb k (length (tokens s)) then
      (Ok tt, set_tokens (firstn k (tokens s) ++ t :: skipn k (tokens s)) s)
    else (Panic PTokenInsert, s).

(** 415-433 [stale_simple_keys]: the Vec is walked from the bottom of the stack to its top. *)
Definition sk_stale (m : mark) (k : simple_key) : bool :=
  sk_possible k && ((m_line (sk_mark k) <? m_line m) || (m_index (sk_mark k) + 1024 <? m_index m)).
Definition sk_off (k : simple_key) : simple_key :=
  Mk_sk false (sk_required k) (sk_token k) (sk_mark k).
Fixpoint stale_keys (m : mark) (ks : list simple_key) : list simple_key * option mark :=
  match ks with
  | [] => ([], None)
  | k :: r =>
      match stale_keys m r with
      | (r', Some e) => (k :: r', Some e)
      | (r', None) =>
          if sk_stale m k then
            if sk_required k then (k :: r', Some (sk_mark k)) else (sk_off k :: r', None)
          else (k :: r', None)
      end
  end.
Definition stale_simple_keys : M sst unit := fun s =>
  match stale_keys (pos s) (simple_keys s) with
  | (ks, None) => (Ok tt, set_simple_keys ks s)
  | (ks, Some m) =>
      (Err (EScanner "while scanning a simple key" m "could not find expected ':'" (pos s)),
       set_simple_keys ks s)
  end.

(** 450-464 [remove_simple_key] *)
Definition remove_simple_key : M sst unit := fun s =>
  match simple_keys s with
  | [] => (Panic PSimpleKeysEmpty, s)
  | k :: r =>
      if sk_possible k && sk_required k then
        (Err (EScanner "while scanning a simple key" (sk_mark k) "could not find expected ':'" (pos s)), s)
      else (Ok tt, set_simple_keys (sk_off k :: r) s)
  end.

(** 435-448 [save_simple_key]; [self.indent as u64 == self.mark.column]: -1 is never equal. *)
Definition save_simple_key : M sst unit :=
  s <- get ;;
  let required := (flow_level s =? 0) && (indent s =? bcol s)%Z in
  if simple_key_allowed s then
    let k := Mk_sk true required (tokens_parsed s + N.of_nat (length (tokens s))) (pos s) in
    remove_simple_key ;;
    (fun s => match simple_keys s with
              | [] => (Panic PSimpleKeysEmpty, s)
              | _ :: r => (Ok tt, set_simple_keys (k :: r) s)
              end)
  else ret tt.

(** 466-484 [increase_flow_level] *)
Definition increase_flow_level : M sst unit :=
  modify (fun s => set_simple_keys (Mk_sk false false 0 mark0 :: simple_keys s) s) ;;
  fl <- gets flow_level ;;
  if fl =? 2147483647 then panics PFlowLevelOverflow
  else modify (fun s => set_flow_level (flow_level s + 1) s).

(** 486-491 [decrease_flow_level] *)
Definition decrease_flow_level : M sst unit := modify (fun s =>
  if flow_level s =? 0 then s
  else set_simple_keys (tl (simple_keys s)) (set_flow_level (flow_level s - 1) s)).

(** 493-514 [roll_indent]; [number = None] is the -1 of the source. *)
Definition roll_indent (column : Z) (number : option N) (d : token_data) (m : mark) : M sst unit :=
  s <- get ;;
  if negb (flow_level s =? 0) then ret tt
  else if (indent s <? column)%Z then
    modify (fun s => set_indents (indent s :: indents s) s) ;;
    (if (column <=? 2147483647)%Z then ret tt else panics PIndentOverflow) ;;
    modify (set_indent column) ;;
    match number with
    | None => push_token d m m
    | Some n => insert_token n (Mk_token d m m)
    end
  else ret tt.

(** 516-529 [unroll_indent]: structural recursion over the indentation stack. *)
Fixpoint unroll_go (column : Z) (ind : Z) (st : list Z) (m : mark) (toks : list token)
  : option panic * Z * list Z * list token :=
  if (column <? ind)%Z then
    let toks' := toks ++ [Mk_token TBlockEnd m m] in
    match st with
    | [] => (Some PIndentsEmpty, ind, [], toks')
    | i :: st' => unroll_go column i st' m toks'
    end
  else (None, ind, st, toks).
Definition unroll_indent (column : Z) : M sst unit := fun s =>
  if negb (flow_level s =? 0) then (Ok tt, s)
  else match unroll_go column (indent s) (indents s) (pos s) (tokens s) with
       | (p, i, st, toks) =>
           let s' := set_tokens toks (set_indents st (set_indent i s)) in
           (match p with None => Ok tt | Some p => Panic p end, s')
       end.

(** 531-554 [fetch_stream_start] *)
Definition fetch_stream_start : M sst unit := modify (fun s =>
  let s := set_indent (-1)%Z s in
  let s := set_simple_keys (Mk_sk false false 0 mark0 :: simple_keys s) s in
  let s := set_simple_key_allowed true s in
  let s := set_stream_start_produced true s in
  set_tokens (tokens s ++ [Mk_token (TStreamStart (enc s)) (pos s) (pos s)]) s).

(** 556-571 [fetch_stream_end] *)
Definition fetch_stream_end : M sst unit :=
  modify (fun s => if m_col (pos s) =? 0 then s
                   else set_pos (Mk_mark (m_index (pos s)) (m_line (pos s) + 1) 0) s) ;;
  unroll_indent (-1)%Z ;;
  remove_simple_key ;;
  modify (set_simple_key_allowed false) ;;
  m <- gets pos ;;
  push_token TStreamEnd m m.

(** A token made of the next [n] characters (587-597, 605-613, ...). *)
Definition fetch_indicator (n : nat) (d : token_data) : M sst unit :=
  a <- gets pos ;; skip_chars n ;; b <- gets pos ;; push_token d a b.

(** 582-599 [fetch_document_indicator] *)
Definition fetch_document_indicator (d : token_data) : M sst unit :=
  unroll_indent (-1)%Z ;;
  remove_simple_key ;;
  modify (set_simple_key_allowed false) ;;
  fetch_indicator 3 d.

(** 601-615 [fetch_flow_collection_start] *)
Definition fetch_flow_collection_start (d : token_data) : M sst unit :=
  save_simple_key ;;
  increase_flow_level ;;
  modify (set_simple_key_allowed true) ;;
  fetch_indicator 1 d.

(** 617-631 [fetch_flow_collection_end] *)
Definition fetch_flow_collection_end (d : token_data) : M sst unit :=
  remove_simple_key ;;
  decrease_flow_level ;;
  modify (set_simple_key_allowed false) ;;
  fetch_indicator 1 d.

(** 633-646 [fetch_flow_entry] *)
Definition fetch_flow_entry : M sst unit :=
  remove_simple_key ;;
  modify (set_simple_key_allowed true) ;;
  fetch_indicator 1 TFlowEntry.

(** 648-676 [fetch_block_entry] *)
Definition fetch_block_entry : M sst unit :=
  s <- get ;;
  (if flow_level s =? 0 then
     if negb (simple_key_allowed s) then
       scan_error "" (pos s) "block sequence entries are not allowed in this context"
     else roll_indent (bcol s) None TBlockSequenceStart (pos s)
   else ret tt) ;;
  remove_simple_key ;;
  modify (set_simple_key_allowed true) ;;
  fetch_indicator 1 TBlockEntry.

(** 678-706 [fetch_key] *)
Definition fetch_key : M sst unit :=
  s <- get ;;
  (if flow_level s =? 0 then
     if negb (simple_key_allowed s) then
       scan_error "" (pos s) "mapping keys are not allowed in this context"
     else roll_indent (bcol s) None TBlockMappingStart (pos s)
   else ret tt) ;;
  remove_simple_key ;;
  modify (fun s => set_simple_key_allowed (flow_level s =? 0) s) ;;
  fetch_indicator 1 TKey.

(** 708-759 [fetch_value] *)
Definition fetch_value : M sst unit :=
  s <- get ;;
  match simple_keys s with
  | [] => panics PSimpleKeysEmpty
  | k :: r =>
      (if sk_possible k then
         insert_token (sk_token k) (Mk_token TKey (sk_mark k) (sk_mark k)) ;;
         modify (set_simple_keys (sk_off k :: r)) ;;
         roll_indent (Z.of_N (m_col (sk_mark k))) (Some (sk_token k)) TBlockMappingStart (sk_mark k) ;;
         modify (set_simple_key_allowed false)
       else
         (if flow_level s =? 0 then
            if negb (simple_key_allowed s) then
              scan_error "" (pos s) "mapping values are not allowed in this context"
            else roll_indent (bcol s) None TBlockMappingStart (pos s)
          else ret tt) ;;
         modify (fun s => set_simple_key_allowed (flow_level s =? 0) s)) ;;
      fetch_indicator 1 TValue
  end.

(** 801-830 [scan_to_next_token] *)
Definition scan_to_next_token : M sst unit :=
  loop (fun _ : unit =>
    cache 1 ;;
    s <- get ;;
    when ((m_col (pos s) =? 0) && IS_BOM (bget 0 s)) skip_char ;;
    cache 1 ;;
    skip_while (fun s => chk cSP (bget 0 s)
                  || (negb (flow_level s =? 0) || negb (simple_key_allowed s)) && chk cTAB (bget 0 s)) ;;
    s <- get ;;
    when (chk cHASH (bget 0 s)) (skip_while (fun s => negb (is_breakz (bget 0 s)))) ;;
    s <- get ;;
    if negb (is_break (bget 0 s)) then ret (inr tt)
    else
      cache 2 ;;
      skip_line_break ;;
      modify (fun s => if flow_level s =? 0 then set_simple_key_allowed true s else s) ;;
      ret (inl tt)) tt.

(** 897-924 [scan_directive_name] *)
Definition scan_directive_name (start_mark : mark) : M sst str :=
  cache 1 ;;
  string <- read_while (fun s => is_alpha (bget 0 s)) [] ;;
  s <- get ;;
  if is_empty string then
    scan_error "while scanning a directive" start_mark "could not find expected directive name"
  else if negb (is_blankz (bget 0 s)) then
    scan_error "while scanning a directive" start_mark "found unexpected non-alphabetical character"
  else ret string.

(** 949-975 [scan_version_directive_number]; MAX_NUMBER_LENGTH = 9 (line 10) *)
Definition scan_version_directive_number (start_mark : mark) : M sst Z :=
  cache 1 ;;
  '(value, length) <- loop (fun '(value, length) =>
    s <- get ;;
    if is_digit (bget 0 s) then
      let length := length + 1 in
      if 9 <? length then
        scan_error "while scanning a %YAML directive" start_mark "found extremely long version number"
      else match as_digit (bget 0 s) with
           | None => panics PDigit
           | Some d => skip_char ;; cache 1 ;; ret (inl (value * 10 + d, length))
           end
    else ret (inr (value, length))) (0, 0) ;;
  if length =? 0 then
    scan_error "while scanning a %YAML directive" start_mark "did not find expected version number"
  else ret (Z.of_N value).

(** 926-947 [scan_version_directive_value] *)
Definition scan_version_directive_value (start_mark : mark) : M sst (Z * Z) :=
  cache 1 ;;
  skip_while (fun s => is_blank (bget 0 s)) ;;
  major <- scan_version_directive_number start_mark ;;
  s <- get ;;
  if negb (chk cDOT (bget 0 s)) then
    scan_error "while scanning a %YAML directive" start_mark "did not find expected digit or '.' character"
  else
    skip_char ;;
    minor <- scan_version_directive_number start_mark ;;
    ret (major, minor).

(** 1123-1158 [scan_tag_handle] *)
Definition scan_tag_handle (directive : bool) (start_mark : mark) : M sst str :=
  cache 1 ;;
  s <- get ;;
  if negb (chk cBANG (bget 0 s)) then
    scan_error (if directive then "while scanning a tag directive" else "while scanning a tag")%string
               start_mark "did not find expected '!'"
  else
    string <- read_char [] ;;
    cache 1 ;;
    string <- read_while (fun s => is_alpha (bget 0 s)) string ;;
    s <- get ;;
    if chk cBANG (bget 0 s) then read_char string
    else if directive && negb (str_eqb string (lit "!")) then
      scan_error "while parsing a tag directive" start_mark "did not find expected '!'"
    else ret string.

Definition uri_context (directive : bool) : string :=
  (if directive then "while parsing a %TAG directive" else "while parsing a tag")%string.

(** 1247-1257: expected length of the UTF-8 sequence started by an escaped octet *)
Definition octet_width (octet : N) : N :=
  if N.land octet 128 =? 0 then 1
  else if N.land octet 224 =? 192 then 2
  else if N.land octet 240 =? 224 then 3
  else if N.land octet 248 =? 240 then 4
  else 0.

(** 1222-1291 [scan_uri_escapes].  As in the source each octet is pushed as a char of its own
    (line 1281), it is not decoded as UTF-8. *)
Definition scan_uri_escapes (directive : bool) (start_mark : mark) (string : str) : M sst str :=
  loop (fun '(width, string) =>
    cache 3 ;;
    s <- get ;;
    if negb (chk cPCT (bget 0 s) && is_hex (bget 1 s) && is_hex (bget 2 s)) then
      scan_error (uri_context directive) start_mark "did not find URI escaped octet"
    else
      match as_hex (bget 1 s), as_hex (bget 2 s) with
      | Some h, Some l =>
          let octet := h * 16 + l in
          width <- (if width =? 0 then
                      let w := octet_width octet in
                      if w =? 0 then
                        scan_error (uri_context directive) start_mark "found an incorrect leading UTF-8 octet"
                      else ret w
                    else if negb (N.land octet 192 =? 128) then
                      scan_error (uri_context directive) start_mark "found an incorrect trailing UTF-8 octet"
                    else ret width) ;;
          skip_chars 3 ;;
          if width - 1 =? 0 then ret (inr (string ++ [octet]))
          else ret (inl (width - 1, string ++ [octet]))
      | _, _ => panics PDigit
      end) (0, string).

(** 1176-1197: characters of a tag URI *)
Definition uri_char_ok (uri_char : bool) (o : option char) : bool :=
  is_alpha o || chk cSEMI o || chk cSLASH o || chk cQM o || chk cCOLON o || chk cAT o
  || chk cAMP o || chk cEQ o || chk cPLUS o || chk cDOLLAR o || chk cDOT o || chk cPCT o
  || chk cBANG o || chk cTILDE o || chk cSTAR o || chk cSQ o || chk cLPAR o || chk cRPAR o
  || uri_char && (chk cCOMMA o || chk cLBRK o || chk cRBRK o).

(** 1160-1220 [scan_tag_uri] *)
Definition scan_tag_uri (uri_char directive : bool) (head : option str) (start_mark : mark)
  : M sst str :=
  let head := match head with Some h => h | None => [] end in
  let length := str_len head in
  let string := if 1 <? length then tl head else [] in
  cache 1 ;;
  '(string, length) <- loop (fun '(string, length) =>
    s <- get ;;
    if uri_char_ok uri_char (bget 0 s) then
      string <- (if chk cPCT (bget 0 s) then scan_uri_escapes directive start_mark string
                 else read_char string) ;;
      cache 1 ;;
      ret (inl (string, length + 1))
    else ret (inr (string, length))) (string, length) ;;
  if length =? 0 then
    scan_error (uri_context directive) start_mark "did not find expected tag URI"
  else ret string.

(** 978-1016 [scan_tag_directive_value] *)
Definition scan_tag_directive_value (start_mark : mark) : M sst (str * str) :=
  cache 1 ;;
  skip_while (fun s => is_blank (bget 0 s)) ;;
  handle <- scan_tag_handle true start_mark ;;
  cache 1 ;;
  s <- get ;;
  if negb (is_blank (bget 0 s)) then
    scan_error "while scanning a %TAG directive" start_mark "did not find expected whitespace"
  else
    skip_while (fun s => is_blank (bget 0 s)) ;;
    prefix <- scan_tag_uri true true None start_mark ;;
    cache 1 ;;
    s <- get ;;
    if negb (is_blankz (bget 0 s)) then
      scan_error "while scanning a %TAG directive" start_mark "did not find expected whitespace or line break"
    else ret (handle, prefix).

(** 832-895 [scan_directive] *)
Definition scan_directive : M sst token :=
  start_mark <- gets pos ;;
  skip_char ;;
  name <- scan_directive_name start_mark ;;
  d <- (if str_eqb name (lit "YAML") then
          '(major, minor) <- scan_version_directive_value start_mark ;;
          ret (TVersionDirective major minor)
        else if str_eqb name (lit "TAG") then
          '(handle, prefix) <- scan_tag_directive_value start_mark ;;
          ret (TTagDirective handle prefix)
        else
          scan_error "while scanning a directive" start_mark "found unknown directive name") ;;
  end_mark <- gets pos ;;
  cache 1 ;;
  skip_while (fun s => is_blank (bget 0 s)) ;;
  s <- get ;;
  when (chk cHASH (bget 0 s)) (skip_while (fun s => negb (is_breakz (bget 0 s)))) ;;
  s <- get ;;
  if is_breakz (bget 0 s) then
    when (is_break (bget 0 s)) (cache 2 ;; skip_line_break) ;;
    ret (Mk_token d start_mark end_mark)
  else
    scan_error "while scanning a directive" start_mark "did not find expected comment or line break".

(** 573-580 [fetch_directive] *)
Definition fetch_directive : M sst unit :=
  unroll_indent (-1)%Z ;;
  remove_simple_key ;;
  modify (set_simple_key_allowed false) ;;
  t <- scan_directive ;;
  modify (fun s => set_tokens (tokens s ++ [t]) s).

(** 1018-1066 [scan_anchor] *)
Definition anchor_end_ok (o : option char) : bool :=
  is_blankz o || chk cQM o || chk cCOLON o || chk cCOMMA o || chk cRBRK o || chk cRBRC o
  || chk cPCT o || chk cAT o || chk cBTICK o.
Definition scan_anchor (alias : bool) : M sst token :=
  start_mark <- gets pos ;;
  skip_char ;;
  cache 1 ;;
  string <- read_while (fun s => is_alpha (bget 0 s)) [] ;;
  end_mark <- gets pos ;;
  s <- get ;;
  if is_empty string || negb (anchor_end_ok (bget 0 s)) then
    scan_error (if alias then "while scanning an alias" else "while scanning an anchor")%string
               start_mark "did not find expected alphabetic or numeric character"
  else ret (Mk_token (if alias then TAlias string else TAnchor string) start_mark end_mark).

(** 1068-1121 [scan_tag] *)
Definition scan_tag : M sst token :=
  start_mark <- gets pos ;;
  cache 2 ;;
  s <- get ;;
  '(handle, suffix) <-
    (if chk cLT (bget 1 s) then
       skip_char ;; skip_char ;;
       suffix <- scan_tag_uri true false None start_mark ;;
       s <- get ;;
       if negb (chk cGT (bget 0 s)) then
         scan_error "while scanning a tag" start_mark "did not find the expected '>'"
       else skip_char ;; ret ([], suffix)
     else
       handle <- scan_tag_handle false start_mark ;;
       if starts_with cBANG handle && (1 <? str_len handle) && ends_with cBANG handle then
         suffix <- scan_tag_uri false false None start_mark ;;
         ret (handle, suffix)
       else
         suffix <- scan_tag_uri false false (Some handle) start_mark ;;
         (* an empty suffix is swapped with the handle "!" (1096-1099) *)
         if is_empty suffix then ret ([], lit "!") else ret (lit "!", suffix)) ;;
  cache 1 ;;
  s <- get ;;
  (if negb (is_blankz (bget 0 s)) then
     if (flow_level s =? 0) || negb (chk cCOMMA (bget 0 s)) then
       scan_error "while scanning a tag" start_mark "did not find expected whitespace or line break"
     else panics PTagTodo
   else ret tt) ;;
  end_mark <- gets pos ;;
  ret (Mk_token (TTag handle suffix) start_mark end_mark).

(** 1445-1487 [scan_block_scalar_breaks]: returns the updated indent, breaks and end_mark. *)
Definition scan_block_scalar_breaks (ind : Z) (breaks : str) (start_mark end_mark : mark)
  : M sst (Z * str * mark) :=
  end_mark <- gets pos ;;
  '(max_indent, breaks, end_mark) <- loop (fun '(max_indent, breaks, end_mark) =>
    cache 1 ;;
    skip_while (fun s => ((ind =? 0)%Z || (bcol s <? ind)%Z) && is_space (bget 0 s)) ;;
    s <- get ;;
    let max_indent := if (max_indent <? bcol s)%Z then bcol s else max_indent in
    if ((ind =? 0)%Z || (bcol s <? ind)%Z) && is_tab (bget 0 s) then
      scan_error "while scanning a block scalar" start_mark
                 "found a tab character where an indentation space is expected"
    else if negb (is_break (bget 0 s)) then ret (inr (max_indent, breaks, end_mark))
    else
      cache 2 ;;
      breaks <- read_line_break breaks ;;
      end_mark <- gets pos ;;
      ret (inl (max_indent, breaks, end_mark))) (0%Z, breaks, end_mark) ;;
  s <- get ;;
  let ind' :=
    if (ind =? 0)%Z then
      let i := if (max_indent <? indent s + 1)%Z then (indent s + 1)%Z else max_indent in
      if (i <? 1)%Z then 1%Z else i
    else ind in
  ret (ind', breaks, end_mark).

(** 1298-1337: the header of a block scalar, returns (chomping, increment). *)
Definition scan_block_header_digit (start_mark : mark) : M sst Z :=
  s <- get ;;
  if chk c0 (bget 0 s) then
    scan_error "while scanning a block scalar" start_mark "found an indentation indicator equal to 0"
  else match as_digit (bget 0 s) with
       | None => panics PDigit
       | Some d => skip_char ;; ret (Z.of_N d)
       end.
Definition scan_block_header (start_mark : mark) : M sst (Z * Z) :=
  s <- get ;;
  if chk cPLUS (bget 0 s) || chk cMINUS (bget 0 s) then
    let chomping := if chk cPLUS (bget 0 s) then 1%Z else (-1)%Z in
    skip_char ;;
    cache 1 ;;
    s <- get ;;
    if is_digit (bget 0 s) then
      increment <- scan_block_header_digit start_mark ;;
      ret (chomping, increment)
    else ret (chomping, 0%Z)
  else if is_digit (bget 0 s) then
    increment <- scan_block_header_digit start_mark ;;
    cache 1 ;;
    s <- get ;;
    if chk cPLUS (bget 0 s) || chk cMINUS (bget 0 s) then
      let chomping := if chk cPLUS (bget 0 s) then 1%Z else (-1)%Z in
      skip_char ;; ret (chomping, increment)
    else ret (0%Z, increment)
  else ret (0%Z, 0%Z).

(** 1388-1421: the lines of a block scalar.  Locals: string, leading_break, trailing_breaks,
    leading_blank, indent, end_mark. *)
Definition block_scalar_lines (literal : bool) (start_mark : mark)
           (ind : Z) (trailing_breaks : str) (end_mark : mark)
  : M sst (str * str * str * mark) :=
  '(string, leading_break, trailing_breaks, _, _, end_mark) <- loop
    (fun '(string, leading_break, trailing_breaks, leading_blank, ind, end_mark) =>
       s <- get ;;
       if negb (bcol s =? ind)%Z || is_z (bget 0 s) then
         ret (inr (string, leading_break, trailing_breaks, leading_blank, ind, end_mark))
       else
         let trailing_blank := is_blank (bget 0 s) in
         let string :=
           if negb literal && starts_with cLF leading_break && negb leading_blank && negb trailing_blank
           then (if is_empty trailing_breaks then string ++ [cSP] else string)
           else string ++ leading_break in
         let string := string ++ trailing_breaks in
         let leading_blank := is_blank (bget 0 s) in
         string <- read_while (fun s => negb (is_breakz (bget 0 s))) string ;;
         cache 2 ;;
         leading_break <- read_line_break [] ;;
         '(ind, trailing_breaks, end_mark) <- scan_block_scalar_breaks ind [] start_mark end_mark ;;
         ret (inl (string, leading_break, trailing_breaks, leading_blank, ind, end_mark)))
    ([], [], trailing_breaks, false, ind, end_mark) ;;
  ret (string, leading_break, trailing_breaks, end_mark).

(** 1293-1443 [scan_block_scalar] *)
Definition scan_block_scalar (literal : bool) : M sst token :=
  start_mark <- gets pos ;;
  skip_char ;;
  cache 1 ;;
  '(chomping, increment) <- scan_block_header start_mark ;;
  cache 1 ;;
  skip_while (fun s => is_blank (bget 0 s)) ;;
  s <- get ;;
  when (chk cHASH (bget 0 s)) (skip_while (fun s => negb (is_breakz (bget 0 s)))) ;;
  s <- get ;;
  (if negb (is_breakz (bget 0 s)) then
     scan_error "while scanning a block scalar" start_mark "did not find expected comment or line break"
   else ret tt) ;;
  when (is_break (bget 0 s)) (cache 2 ;; skip_line_break) ;;
  end_mark <- gets pos ;;
  s <- get ;;
  let ind := if (increment =? 0)%Z then 0%Z
             else if (0 <=? indent s)%Z then (indent s + increment)%Z else increment in
  '(ind, trailing_breaks, end_mark) <- scan_block_scalar_breaks ind [] start_mark end_mark ;;
  cache 1 ;;
  '(string, leading_break, trailing_breaks, end_mark) <-
    block_scalar_lines literal start_mark ind trailing_breaks end_mark ;;
  let string := if (chomping =? -1)%Z then string else string ++ leading_break in
  let string := if (chomping =? 1)%Z then string ++ trailing_breaks else string in
  ret (Mk_token (TScalar string (if literal then SLiteral else SFolded)) start_mark end_mark).

(** 1501-1508, 1734-1741: a document indicator at column 0 *)
Definition at_document_indicator (s : sst) : bool :=
  (m_col (pos s) =? 0)
  && (chk cMINUS (bget 0 s) && chk cMINUS (bget 1 s) && chk cMINUS (bget 2 s)
      || chk cDOT (bget 0 s) && chk cDOT (bget 1 s) && chk cDOT (bget 2 s))
  && is_blankz (bget 3 s).

(** 1541-1621: escape sequences of double quoted scalars: a character, or the number of
    hexadecimal digits that follow. *)
Definition escape_code (c : char) : option (char + nat) :=
  if c =? 48 then Some (inl 0)                     (* '0' *)
  else if c =? 97 then Some (inl 7)                (* 'a' *)
  else if c =? 98 then Some (inl 8)                (* 'b' *)
  else if (c =? 116) || (c =? 9) then Some (inl 9) (* 't' | '\t' *)
  else if c =? 110 then Some (inl 10)              (* 'n' *)
  else if c =? 118 then Some (inl 11)              (* 'v' *)
  else if c =? 102 then Some (inl 12)              (* 'f' *)
  else if c =? 114 then Some (inl 13)              (* 'r' *)
  else if c =? 101 then Some (inl 27)              (* 'e' *)
  else if c =? 32 then Some (inl 32)               (* ' ' *)
  else if c =? 34 then Some (inl 34)               (* double quote *)
  else if c =? 47 then Some (inl 47)               (* '/' *)
  else if c =? 92 then Some (inl 92)               (* backslash *)
  else if c =? 78 then Some (inl 133)              (* 'N' NEL *)
  else if c =? 95 then Some (inl 160)              (* '_' *)
  else if c =? 76 then Some (inl 8232)             (* 'L' *)
  else if c =? 80 then Some (inl 8233)             (* 'P' *)
  else if c =? 120 then Some (inr 2%nat)           (* 'x' *)
  else if c =? 117 then Some (inr 4%nat)           (* 'u' *)
  else if c =? 85 then Some (inr 8%nat)            (* 'U' *)
  else None.

(** 1628-1638: value of [n] hexadecimal digits *)
Fixpoint hex_value (n : nat) (l : list char) (acc : N) : option N :=
  match n with
  | O => Some acc
  | S n' => match l with
            | c :: r => if is_hex_c c then hex_value n' r (acc * 16 + hex_val c) else None
            | [] => None
            end
  end.

(** 1539-1654: a backslash that is not followed by a line break *)
Definition scan_escape (start_mark : mark) (string : str) : M sst str :=
  s <- get ;;
  match bget 1 s with
  | None => panics PEscapeUnwrap
  | Some c =>
      match escape_code c with
      | None => scan_error "while parsing a quoted scalar" start_mark "found unknown escape character"
      | Some (inl ch) => skip_char ;; skip_char ;; ret (string ++ [ch])
      | Some (inr n) =>
          skip_char ;; skip_char ;;
          cache n ;;
          s <- get ;;
          match hex_value n (buffer s) 0 with
          | None => scan_error "while parsing a quoted scalar" start_mark "did not find expected hexdecimal number"
          | Some v =>
              match char_from_u32 v with
              | None => scan_error "while parsing a quoted scalar" start_mark
                                   "found invalid Unicode character escape code"
              | Some ch => skip_chars n ;; ret (string ++ [ch])
              end
          end
      end
  end.

Definition quote_char (single : bool) : char := if single then cSQ else cDQ.

(** 1524-1660: the non-blank part of a line of a quoted scalar; returns (string, leading_blanks). *)
Definition flow_scalar_text (single : bool) (start_mark : mark) (string : str) : M sst (str * bool) :=
  loop (fun string : str =>
    s <- get ;;
    if is_blankz (bget 0 s) then ret (inr (string, false))
    else if single && chk cSQ (bget 0 s) && chk cSQ (bget 1 s) then
      skip_char ;; skip_char ;; cache 2 ;; ret (inl (string ++ [cSQ]))
    else if chk (quote_char single) (bget 0 s) then ret (inr (string, false))
    else if negb single && chk cBSL (bget 0 s) && is_break (bget 1 s) then
      cache 3 ;; skip_char ;; skip_line_break ;; ret (inr (string, true))
    else if negb single && chk cBSL (bget 0 s) then
      string <- scan_escape start_mark string ;; cache 2 ;; ret (inl string)
    else string <- read_char string ;; cache 2 ;; ret (inl string)) string.

(** 1666-1684: blanks and line breaks inside a quoted scalar.  Locals: leading_break,
    trailing_breaks, whitespaces, leading_blanks. *)
Definition flow_scalar_blanks (leading_break trailing_breaks whitespaces : str) (leading_blanks : bool)
  : M sst (str * str * str * bool) :=
  loop (fun '(leading_break, trailing_breaks, whitespaces, leading_blanks) =>
    s <- get ;;
    if is_blank (bget 0 s) then
      if leading_blanks : bool then
        skip_char ;; cache 1 ;; ret (inl (leading_break, trailing_breaks, whitespaces, leading_blanks))
      else
        whitespaces <- read_char whitespaces ;; cache 1 ;;
        ret (inl (leading_break, trailing_breaks, whitespaces, leading_blanks))
    else if is_break (bget 0 s) then
      cache 2 ;;
      if leading_blanks then
        trailing_breaks <- read_line_break trailing_breaks ;; cache 1 ;;
        ret (inl (leading_break, trailing_breaks, whitespaces, leading_blanks))
      else
        leading_break <- read_line_break leading_break ;; cache 1 ;;
        ret (inl (leading_break, trailing_breaks, [], true))
    else ret (inr (leading_break, trailing_breaks, whitespaces, leading_blanks)))
  (leading_break, trailing_breaks, whitespaces, leading_blanks).

(** 1686-1699, 1777-1790: folding of the line breaks *)
Definition fold_breaks (string leading_break trailing_breaks : str) : str :=
  if starts_with cLF leading_break then
    (if is_empty trailing_breaks then string ++ [cSP] else string ++ trailing_breaks)
  else string ++ leading_break ++ trailing_breaks.

(** 1489-1720 [scan_flow_scalar].  Locals: string, leading_break, trailing_breaks, whitespaces. *)
Definition scan_flow_scalar (single : bool) : M sst token :=
  start_mark <- gets pos ;;
  skip_char ;;
  string <- loop (fun '(string, leading_break, trailing_breaks, whitespaces) =>
    cache 4 ;;
    s <- get ;;
    if at_document_indicator s then
      scan_error "while scanning a quoted scalar" start_mark "found unexpected document indicator"
    else if is_z (bget 0 s) then
      scan_error "while scanning a quoted scalar" start_mark "found unexpected end of stream"
    else
      cache 2 ;;
      '(string, leading_blanks) <- flow_scalar_text single start_mark string ;;
      cache 1 ;;
      s <- get ;;
      if chk (quote_char single) (bget 0 s) then ret (inr string)
      else
        cache 1 ;;
        '(leading_break, trailing_breaks, whitespaces, leading_blanks) <-
          flow_scalar_blanks leading_break trailing_breaks whitespaces leading_blanks ;;
        (* when only the breaks are used, [whitespaces] keeps its value (1685-1703) *)
        if leading_blanks : bool then
          ret (inl (fold_breaks string leading_break trailing_breaks, [], [], whitespaces))
        else
          ret (inl (string ++ whitespaces, leading_break, trailing_breaks, [])))
    ([], [], [], []) ;;
  skip_char ;;
  end_mark <- gets pos ;;
  ret (Mk_token (TScalar string (if single then SSingle else SDouble)) start_mark end_mark).

(** Locals of [scan_plain_scalar]. *)
Record plain_st := Mk_plain {
  pl_string : str; pl_leading_break : str; pl_trailing_breaks : str; pl_whitespaces : str;
  pl_leading_blanks : bool; pl_end : mark }.

(** 1765-1772: end of a plain scalar inside a line *)
Definition plain_stop (s : sst) : bool :=
  chk cCOLON (bget 0 s) && is_blankz (bget 1 s)
  || negb (flow_level s =? 0)
     && (chk cCOMMA (bget 0 s) || chk cLBRK (bget 0 s) || chk cRBRK (bget 0 s)
         || chk cLBRC (bget 0 s) || chk cRBRC (bget 0 s)).
(** 1749-1757 *)
Definition plain_bad_colon (s : sst) : bool :=
  negb (flow_level s =? 0) && chk cCOLON (bget 0 s)
  && (chk cCOMMA (bget 1 s) || chk cQM (bget 1 s) || chk cLBRK (bget 1 s)
      || chk cRBRK (bget 1 s) || chk cLBRC (bget 1 s) || chk cRBRC (bget 1 s)).

(** 1748-1800 *)
Definition plain_text (start_mark : mark) (p : plain_st) : M sst plain_st :=
  loop (fun p : plain_st =>
    s <- get ;;
    if is_blankz (bget 0 s) then ret (inr p)
    else if plain_bad_colon s then
      scan_error "while scanning a plain scalar" start_mark "found unexpected ':'"
    else if plain_stop s then ret (inr p)
    else
      let p :=
        if pl_leading_blanks p then
          Mk_plain (fold_breaks (pl_string p) (pl_leading_break p) (pl_trailing_breaks p))
                   [] [] (pl_whitespaces p) false (pl_end p)
        else if negb (is_empty (pl_whitespaces p)) then
          Mk_plain (pl_string p ++ pl_whitespaces p) (pl_leading_break p) (pl_trailing_breaks p)
                   [] false (pl_end p)
        else p in
      string <- read_char (pl_string p) ;;
      end_mark <- gets pos ;;
      cache 2 ;;
      ret (inl (Mk_plain string (pl_leading_break p) (pl_trailing_breaks p) (pl_whitespaces p)
                         (pl_leading_blanks p) end_mark))) p.

(** 1806-1832 *)
Definition plain_blanks (start_mark : mark) (ind : Z) (p : plain_st) : M sst plain_st :=
  loop (fun p : plain_st =>
    s <- get ;;
    if is_blank (bget 0 s) then
      if pl_leading_blanks p && (bcol s <? ind)%Z && is_tab (bget 0 s) then
        scan_error "while scanning a plain scalar" start_mark "found a tab character that violates indentation"
      else if negb (pl_leading_blanks p) then
        w <- read_char (pl_whitespaces p) ;; cache 1 ;;
        ret (inl (Mk_plain (pl_string p) (pl_leading_break p) (pl_trailing_breaks p) w
                           (pl_leading_blanks p) (pl_end p)))
      else skip_char ;; cache 1 ;; ret (inl p)
    else if is_break (bget 0 s) then
      cache 2 ;;
      if pl_leading_blanks p then
        b <- read_line_break (pl_trailing_breaks p) ;; cache 1 ;;
        ret (inl (Mk_plain (pl_string p) (pl_leading_break p) b (pl_whitespaces p) true (pl_end p)))
      else
        b <- read_line_break (pl_leading_break p) ;; cache 1 ;;
        ret (inl (Mk_plain (pl_string p) b (pl_trailing_breaks p) [] true (pl_end p)))
    else ret (inr p)) p.

(** 1722-1850 [scan_plain_scalar] *)
Definition scan_plain_scalar : M sst token :=
  s <- get ;;
  let ind := (indent s + 1)%Z in
  let start_mark := pos s in
  p <- loop (fun p : plain_st =>
    cache 4 ;;
    s <- get ;;
    if at_document_indicator s then ret (inr p)
    else if chk cHASH (bget 0 s) then ret (inr p)
    else
      p <- plain_text start_mark p ;;
      s <- get ;;
      if negb (is_blank (bget 0 s) || is_break (bget 0 s)) then ret (inr p)
      else
        cache 1 ;;
        p <- plain_blanks start_mark ind p ;;
        s <- get ;;
        if (flow_level s =? 0) && (bcol s <? ind)%Z then ret (inr p) else ret (inl p))
    (Mk_plain [] [] [] [] false start_mark) ;;
  when (pl_leading_blanks p) (modify (set_simple_key_allowed true)) ;;
  ret (Mk_token (TScalar (pl_string p) SPlain) start_mark (pl_end p)).

Definition push_scanned (m : M sst token) : M sst unit :=
  t <- m ;; modify (fun s => set_tokens (tokens s ++ [t]) s).

(** 761-767, 769-775, 777-783, 785-791, 793-799 *)
Definition fetch_anchor (alias : bool) : M sst unit :=
  save_simple_key ;; modify (set_simple_key_allowed false) ;; push_scanned (scan_anchor alias).
Definition fetch_tag : M sst unit :=
  save_simple_key ;; modify (set_simple_key_allowed false) ;; push_scanned scan_tag.
Definition fetch_block_scalar (literal : bool) : M sst unit :=
  remove_simple_key ;; modify (set_simple_key_allowed true) ;; push_scanned (scan_block_scalar literal).
Definition fetch_flow_scalar (single : bool) : M sst unit :=
  save_simple_key ;; modify (set_simple_key_allowed false) ;; push_scanned (scan_flow_scalar single).
Definition fetch_plain_scalar : M sst unit :=
  save_simple_key ;; modify (set_simple_key_allowed false) ;; push_scanned scan_plain_scalar.

(** 381-404: may a plain scalar start here? *)
Definition plain_start (s : sst) : bool :=
  let o := bget 0 s in
  negb (is_blankz o || chk cMINUS o || chk cQM o || chk cCOLON o || chk cCOMMA o || chk cLBRK o
        || chk cRBRK o || chk cLBRC o || chk cRBRC o || chk cHASH o || chk cAMP o || chk cSTAR o
        || chk cBANG o || chk cPIPE o || chk cGT o || chk cSQ o || chk cDQ o || chk cPCT o
        || chk cAT o || chk cBTICK o)
  || chk cMINUS o && negb (is_blank (bget 1 s))
  || (flow_level s =? 0) && (chk cQM o || chk cCOLON o) && negb (is_blankz (bget 1 s)).

(** 304-413 [fetch_next_token] *)
Definition fetch_next_token : M sst unit :=
  cache 1 ;;
  s <- get ;;
  if negb (stream_start_produced s) then fetch_stream_start
  else
    scan_to_next_token ;;
    stale_simple_keys ;;
    s <- get ;;
    unroll_indent (bcol s) ;;
    cache 4 ;;
    s <- get ;;
    let col0 := m_col (pos s) =? 0 in
    let o := bget 0 s in
    let flow := negb (flow_level s =? 0) in
    if is_z o then fetch_stream_end
    else if col0 && chk cPCT o then fetch_directive
    else if col0 && chk cMINUS o && chk cMINUS (bget 1 s) && chk cMINUS (bget 2 s) && is_blankz (bget 3 s)
    then fetch_document_indicator TDocumentStart
    else if col0 && chk cDOT o && chk cDOT (bget 1 s) && chk cDOT (bget 2 s) && is_blankz (bget 3 s)
    then fetch_document_indicator TDocumentEnd
    else if chk cLBRK o then fetch_flow_collection_start TFlowSequenceStart
    else if chk cLBRC o then fetch_flow_collection_start TFlowMappingStart
    else if chk cRBRK o then fetch_flow_collection_end TFlowSequenceEnd
    else if chk cRBRC o then fetch_flow_collection_end TFlowMappingEnd
    else if chk cCOMMA o then fetch_flow_entry
    else if chk cMINUS o && is_blankz (bget 1 s) then fetch_block_entry
    else if chk cQM o && (flow || is_blankz (bget 1 s)) then fetch_key
    else if chk cCOLON o && (flow || is_blankz (bget 1 s)) then fetch_value
    else if chk cSTAR o then fetch_anchor true
    else if chk cAMP o then fetch_anchor false
    else if chk cBANG o then fetch_tag
    else if chk cPIPE o && negb flow then fetch_block_scalar true
    else if chk cGT o && negb flow then fetch_block_scalar false
    else if chk cSQ o then fetch_flow_scalar true
    else if chk cDQ o then fetch_flow_scalar false
    else if plain_start s then fetch_plain_scalar
    else scan_error "while scanning for the next token" (pos s) "found character that cannot start any token".

(** 280-302 [fetch_more_tokens].  The loop budget: an iteration consumes a character, or
    produces STREAM-START, or produces STREAM-END after which no simple key is left. *)
Definition need_more_tokens (s : sst) : bool :=
  is_empty (tokens s)
  || existsb (fun k => sk_possible k && (sk_token k =? tokens_parsed s)) (simple_keys s).
Definition fetch_more_tokens : M sst unit :=
  (fun s => loopM (S (S (S (S (meas s))))) (fun _ : unit =>
    s <- get ;;
    (if is_empty (tokens s) then ret tt else stale_simple_keys) ;;
    s <- get ;;
    if negb (need_more_tokens s) then ret (inr tt)
    else fetch_next_token ;; ret (inl tt)) tt s) ;;
  modify (set_token_available true).

(** 196-217 [scan] *)
Definition is_stream_end (t : token) : bool :=
  match t_data t with TStreamEnd => true | _ => false end.
Definition scan : M sst token :=
  s <- get ;;
  if stream_end_produced s then ret (Mk_token TStreamEnd mark0 mark0)
  else
    (if token_available s then ret tt else fetch_more_tokens) ;;
    (fun s => match tokens s with
              | [] => (Panic PTokensEmpty, s)
              | t :: r =>
                  let s := set_tokens_parsed (tokens_parsed s + 1)
                             (set_token_available false (set_tokens r s)) in
                  (Ok t, if is_stream_end t then set_stream_end_produced true s else s)
              end).

(** 1862-1868 [Iterator::next] of the scanner *)
Definition scanner_next : M sst (option token) :=
  s <- get ;;
  if stream_end_produced s then ret None else t <- scan ;; ret (Some t).

(** 220-255 peek, peek_mut *)
Definition peek : M sst token :=
  s <- get ;;
  (if token_available s then ret tt else fetch_more_tokens) ;;
  s <- get ;;
  if negb (token_available s) then panics PNotAvailable
  else match tokens s with
       | [] => panics PTokensEmpty
       | t :: _ => ret t
       end.

(** Writing through the reference returned by [peek_mut] (core::mem::take of a field). *)
Definition set_front (d : token_data) : M sst unit := modify (fun s =>
  match tokens s with
  | t :: r => set_tokens (Mk_token d (t_start t) (t_end t) :: r) s
  | [] => s
  end).

(** 258-269 [skip_token] *)
Definition skip_token : M sst unit := fun s =>
  let s := set_tokens_parsed (tokens_parsed s + 1) (set_token_available false s) in
  match tokens s with
  | [] => (Panic PTokensEmpty, s)
  | t :: r => (Ok tt, set_stream_end_produced (is_stream_end t) (set_tokens r s))
  end.
