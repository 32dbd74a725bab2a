(** Emitter.v -- src/emitter.rs: from events to the output stream.

    Every definition models the function of the same name; line numbers refer to
    src/emitter.rs. *)
From Verif Require Import Base Utf Chars EState.

(** 16384, src/lib.rs:49 *)
Definition OUTPUT_BUFFER_SIZE : N := 16384.

Definition emitter_error {A} (problem : string) : M est A := fail (EEmitter problem).

(** io::Write::write_all on the modelled handler. *)
Definition write_all (l : list byte) (w : writer) : option ioerr * writer :=
  match w_plan w with
  | [] => (None, Mk_writer (w_out w ++ l) [])
  | WOk :: r => (None, Mk_writer (w_out w ++ l) r)
  | WFail k c :: r => (Some (OtherIo c), Mk_writer (w_out w ++ firstn k l) r)
  end.
Definition write_all_m (l : list byte) : M est unit := fun s =>
  match em_writer s with
  | None => (Panic PNoWriter, s)
  | Some w => match write_all l w with
              | (None, w') => (Ok tt, set_em_writer (Some w') s)
              | (Some e, w') => (Err (EIo e), set_em_writer (Some w') s)
              end
  end.

(** The bytes of [self.buffer] in the output encoding (1787-1796). *)
Definition encode_out (e : encoding) (l : list char) : list byte :=
  match e with
  | Utf16Le => encode_utf16 false l
  | Utf16Be => encode_utf16 true l
  | _ => encode_utf8 l
  end.

(** 1768-1812 [flush] *)
Definition flush : M est unit :=
  s <- get ;;
  match em_writer s with
  | None => panics PNoWriter
  | Some _ =>
      if encoding_eqb (em_encoding s) EncAny then panics PNoEncoding
      else if is_empty (em_buffer s) then ret tt
      else if encoding_eqb (em_encoding s) Utf8 then
        write_all_m (encode_out Utf8 (em_buffer s)) ;;
        modify (set_em_buffer [])
      else
        modify (fun s => set_em_raw (em_raw s ++ encode_out (em_encoding s) (em_buffer s)) s) ;;
        s <- get ;;
        write_all_m (em_raw s) ;;
        modify (fun s => set_em_raw [] (set_em_buffer [] s))
  end.

(** 320-326 [flush_if_needed] *)
Definition flush_if_needed : M est unit :=
  s <- get ;;
  if str_len (em_buffer s) <? OUTPUT_BUFFER_SIZE - 5 then ret tt else flush.

(** [self.buffer.push(..)] *)
Definition out (l : list char) : M est unit := modify (fun s => set_em_buffer (em_buffer s ++ l) s).
Definition add_column (n : Z) : M est unit := modify (fun s => set_em_column (em_column s + n)%Z s).
Definition new_line : M est unit := modify (fun s => set_em_column 0%Z (set_em_line (em_line s + 1)%Z s)).

(** 329-334 [put] *)
Definition put (c : char) : M est unit := flush_if_needed ;; out [c] ;; add_column 1.

(** 337-349 [put_break] *)
Definition break_chars (b : line_break) : list char :=
  match b with BrCr => [cCR] | BrLn => [cLF] | BrCrLn => [cCR; cLF] | BrAny => [] end.
Definition put_break : M est unit :=
  flush_if_needed ;; s <- get ;; out (break_chars (em_line_break s)) ;; new_line.

(** 354-370 [write_str] *)
Definition write_str (l : str) : M est unit :=
  s <- get ;;
  when (OUTPUT_BUFFER_SIZE <? str_len (em_buffer s) + str_len l) flush ;;
  add_column (Z.of_nat (length l)) ;;
  out l.

(** 373-378 [write_char] *)
Definition write_char (c : char) : M est unit := flush_if_needed ;; out [c] ;; add_column 1.

(** 381-391 [write_break] *)
Definition write_break (c : char) : M est unit :=
  flush_if_needed ;;
  if c =? cLF then put_break else write_char c ;; new_line.

(** 393-432 [needs_mode_events] *)
Definition level_delta (d : event_data) : Z :=
  match d with
  | EvStreamStart _ | EvDocumentStart _ _ _ | EvSequenceStart _ _ _ _ | EvMappingStart _ _ _ _ => 1%Z
  | EvStreamEnd | EvDocumentEnd _ | EvSequenceEnd | EvMappingEnd => (-1)%Z
  | _ => 0%Z
  end.
Fixpoint level_returns (level : Z) (l : list event) : bool :=
  match l with
  | [] => false
  | e :: r => let level := (level + level_delta (e_data e))%Z in
              if (level =? 0)%Z then true else level_returns level r
  end.
Definition accumulate (d : event_data) : option nat :=
  match d with
  | EvDocumentStart _ _ _ => Some 1%nat
  | EvSequenceStart _ _ _ _ => Some 2%nat
  | EvMappingStart _ _ _ _ => Some 3%nat
  | _ => None
  end.
Definition ready (l : list event) : bool :=
  match l with
  | [] => false
  | e :: _ => match accumulate (e_data e) with
              | None => true
              | Some n => Nat.ltb n (length l) || level_returns 0 l
              end
  end.
Definition needs_mode_events : M est (option event) := fun s =>
  match em_events s with
  | [] => (Ok None, s)
  | e :: r => if ready (e :: r) then (Ok (Some e), set_em_events r s) else (Ok None, s)
  end.

(** 434-445 [append_tag_directive] *)
Definition em_append_tag_directive (value : tag_directive) (allow_duplicates : bool) : M est unit :=
  s <- get ;;
  if existsb (fun t => str_eqb (td_handle value) (td_handle t)) (em_tag_directives s) then
    if allow_duplicates then ret tt else emitter_error "duplicate %TAG directive"
  else modify (fun s => set_em_tag_directives (em_tag_directives s ++ [value]) s).

(** 447-454 [increase_indent] *)
Definition increase_indent (flow indentless : bool) : M est unit := modify (fun s =>
  let s := set_em_indents (em_indent s :: em_indents s) s in
  if (em_indent s <? 0)%Z then set_em_indent (if flow then em_best_indent s else 0%Z) s
  else if negb indentless then set_em_indent (em_indent s + em_best_indent s)%Z s
  else s).
(** [self.indent = self.indents.pop().unwrap()] *)
Definition pop_indent : M est unit := fun s =>
  match em_indents s with
  | [] => (Panic PIndentsEmpty, s)
  | i :: r => (Ok tt, set_em_indent i (set_em_indents r s))
  end.
(** [self.state = self.states.pop().unwrap()], [self.states.push(..)] *)
Definition pop_estate : M est unit := fun s =>
  match em_states s with
  | [] => (Panic PStatesEmpty, s)
  | x :: r => (Ok tt, set_em_state x (set_em_states r s))
  end.
Definition push_estate (x : estate) : M est unit := modify (fun s => set_em_states (x :: em_states s) s).
Definition goto_estate (x : estate) : M est unit := modify (set_em_state x).

(** [self.whitespace = ..; self.indention = ..] *)
Definition set_ws (w i : bool) : M est unit := modify (fun s => set_em_whitespace w (set_em_indention i s)).
Definition set_indention (i : bool) : M est unit := modify (set_em_indention i).

(** 1361-1365 [write_bom] *)
Definition write_bom : M est unit := flush_if_needed ;; out [cBOM].

(** 1367-1378 [write_indent]; the [while self.column < indent] loop runs indent - column times
    because [put] adds one to the column. *)
Fixpoint put_spaces (n : nat) : M est unit :=
  match n with O => ret tt | S n' => put cSP ;; put_spaces n' end.
Definition write_indent : M est unit :=
  s <- get ;;
  let ind := if (0 <=? em_indent s)%Z then em_indent s else 0%Z in
  when (negb (em_indention s) || (ind <? em_column s)%Z
        || (em_column s =? ind)%Z && negb (em_whitespace s)) put_break ;;
  s <- get ;;
  put_spaces (Z.to_nat (ind - em_column s)) ;;
  set_ws true true.

(** 1380-1394 [write_indicator] *)
Definition write_indicator (ind : str) (need_whitespace is_whitespace is_indention : bool) : M est unit :=
  s <- get ;;
  when (need_whitespace && negb (em_whitespace s)) (put cSP) ;;
  write_str ind ;;
  modify (fun s => set_em_whitespace is_whitespace (set_em_indention (em_indention s && is_indention) s)).

(** 1396-1401 [write_anchor], 1403-1411 [write_tag_handle] *)
Definition write_anchor (v : str) : M est unit := write_str v ;; set_ws false false.
Definition write_tag_handle (v : str) : M est unit :=
  s <- get ;;
  when (negb (em_whitespace s)) (put cSP) ;;
  write_str v ;; set_ws false false.

(** char::from_digit(d, 16) and to_ascii_uppercase *)
Definition hex_upper (d : N) : char := if d <? 10 then 48 + d else 55 + d.

Fixpoint iterM {A} (f : A -> M est unit) (l : list A) : M est unit :=
  match l with [] => ret tt | x :: r => f x ;; iterM f r end.

(** 1413-1452 [write_tag_content] *)
Definition tag_uri_char (c : char) : bool :=
  is_alpha_c c
  || existsb (N.eqb c) [cSEMI; cSLASH; cQM; cCOLON; cAT; cAMP; cEQ; cPLUS; cDOLLAR; cCOMMA;
                        cUNDER; cDOT; cTILDE; cSTAR; cSQ; cLPAR; cRPAR; cLBRK; cRBRK].
Definition write_tag_content (v : str) (need_whitespace : bool) : M est unit :=
  s <- get ;;
  when (need_whitespace && negb (em_whitespace s)) (put cSP) ;;
  iterM (fun c =>
    if tag_uri_char c then write_char c
    else iterM (fun b => put cPCT ;; put (hex_upper (b / 16)) ;; put (hex_upper (b mod 16)))
               (encode_utf8_char c)) v ;;
  set_ws false false.

Definition hd_opt {A} (l : list A) : option A := match l with [] => None | x :: _ => Some x end.

(** 1454-1492 [write_plain_scalar] *)
Fixpoint plain_loop (allow_breaks spaces breaks : bool) (l : str) : M est unit :=
  match l with
  | [] => ret tt
  | ch :: r =>
      if ch =? cSP then
        s <- get ;;
        (if allow_breaks && negb spaces && (em_best_width s <? em_column s)%Z && negb (is_space (hd_opt r))
         then write_indent else write_char ch) ;;
        plain_loop allow_breaks true breaks r
      else if is_break_c ch then
        when (negb breaks && (ch =? cLF)) put_break ;;
        write_break ch ;;
        set_indention true ;;
        plain_loop allow_breaks spaces true r
      else
        when breaks write_indent ;;
        write_char ch ;;
        set_indention false ;;
        plain_loop allow_breaks false false r
  end.
Definition write_plain_scalar (v : str) (allow_breaks : bool) : M est unit :=
  s <- get ;;
  when (negb (em_whitespace s) && (negb (is_empty v) || negb (em_flow_level s =? 0)%Z)) (put cSP) ;;
  plain_loop allow_breaks false false v ;;
  set_ws false false.

(** 1494-1546 [write_single_quoted_scalar] *)
Fixpoint single_loop (allow_breaks spaces breaks is_first : bool) (l : str) : M est bool :=
  match l with
  | [] => ret breaks
  | ch :: r =>
      if ch =? cSP then
        s <- get ;;
        (if allow_breaks && negb spaces && (em_best_width s <? em_column s)%Z
            && negb is_first && negb (is_empty r) && negb (is_space (hd_opt r))
         then write_indent else write_char ch) ;;
        single_loop allow_breaks true breaks false r
      else if is_break_c ch then
        when (negb breaks && (ch =? cLF)) put_break ;;
        write_break ch ;;
        set_indention true ;;
        single_loop allow_breaks spaces true false r
      else
        when breaks write_indent ;;
        when (ch =? cSQ) (put cSQ) ;;
        write_char ch ;;
        set_indention false ;;
        single_loop allow_breaks false false false r
  end.
Definition write_single_quoted_scalar (v : str) (allow_breaks : bool) : M est unit :=
  write_indicator [cSQ] true false false ;;
  breaks <- single_loop allow_breaks false false true v ;;
  when breaks write_indent ;;
  write_indicator [cSQ] false false false ;;
  set_ws false false.

(** 1561-1632: the characters after the backslash of an escape sequence *)
Definition hex_digits (width : nat) (v : N) : list char :=
  map (fun k => hex_upper ((v / 16 ^ N.of_nat k) mod 16)) (rev (seq 0 width)).
Definition escape_chars (c : char) : list char :=
  if c =? 0 then [48]
  else if c =? 7 then [97]
  else if c =? 8 then [98]
  else if c =? 9 then [116]
  else if c =? 10 then [110]
  else if c =? 11 then [118]
  else if c =? 12 then [102]
  else if c =? 13 then [114]
  else if c =? 27 then [101]
  else if c =? 34 then [34]
  else if c =? 92 then [92]
  else if c =? 133 then [78]
  else if c =? 160 then [95]
  else if c =? 8232 then [76]
  else if c =? 8233 then [80]
  else if c <=? 255 then 120 :: hex_digits 2 c
  else if c <=? 65535 then 117 :: hex_digits 4 c
  else 85 :: hex_digits 8 c.
Definition needs_escape (unicode : bool) (c : char) : bool :=
  negb (is_printable c) || negb unicode && negb (is_ascii c) || is_bom c || is_break_c c
  || (c =? cDQ) || (c =? cBSL).

(** 1548-1660 [write_double_quoted_scalar] *)
Fixpoint double_loop (allow_breaks spaces first : bool) (l : str) : M est unit :=
  match l with
  | [] => ret tt
  | ch :: r =>
      s <- get ;;
      if needs_escape (em_unicode s) ch then
        put cBSL ;; iterM put (escape_chars ch) ;;
        double_loop allow_breaks false false r
      else if ch =? cSP then
        (if allow_breaks && negb spaces && (em_best_width s <? em_column s)%Z
            && negb first && negb (is_empty r)
         then write_indent ;; when (is_space (hd_opt r)) (put cBSL)
         else write_char ch) ;;
        double_loop allow_breaks true false r
      else
        write_char ch ;;
        double_loop allow_breaks false false r
  end.
Definition write_double_quoted_scalar (v : str) (allow_breaks : bool) : M est unit :=
  write_indicator [cDQ] true false false ;;
  double_loop allow_breaks false true v ;;
  write_indicator [cDQ] false false false ;;
  set_ws false false.

(** 1662-1696 [write_block_scalar_hints]; char::from_digit(best_indent, 10) *)
Definition write_block_scalar_hints (v : str) : M est unit :=
  s <- get ;;
  (if is_space (hd_opt v) || is_break (hd_opt v) then
     if ((0 <=? em_best_indent s) && (em_best_indent s <? 10))%Z
     then write_indicator [48 + Z.to_N (em_best_indent s)] false false false
     else panics PIndentHint
   else ret tt) ;;
  modify (set_em_open_ended 0%Z) ;;
  match rev v with
  | [] => write_indicator [cMINUS] false false false
  | ch :: r =>
      if negb (is_break_c ch) then write_indicator [cMINUS] false false false
      else if is_breakz (hd_opt r) then
        modify (set_em_open_ended 2%Z) ;; write_indicator [cPLUS] false false false
      else ret tt
  end.

(** 1698-1721 [write_literal_scalar] *)
Fixpoint literal_loop (breaks : bool) (l : str) : M est unit :=
  match l with
  | [] => ret tt
  | ch :: r =>
      if is_break_c ch then
        write_break ch ;; set_indention true ;; literal_loop true r
      else
        when breaks write_indent ;;
        write_char ch ;; set_indention false ;; literal_loop false r
  end.
Definition write_literal_scalar (v : str) : M est unit :=
  write_indicator [cPIPE] true false false ;;
  write_block_scalar_hints v ;;
  put_break ;;
  set_ws true true ;;
  literal_loop true v.

(** 1723-1765 [write_folded_scalar].  1737-1741: [skip_breaks] is advanced past the breaks and
    past the first character that is not a break before it is inspected. *)
Fixpoint drop_breaks (l : str) : str :=
  match l with c :: r => if is_break_c c then drop_breaks r else l | [] => [] end.
Fixpoint folded_loop (breaks leading_spaces : bool) (l : str) : M est unit :=
  match l with
  | [] => ret tt
  | ch :: r =>
      if is_break_c ch then
        when (negb breaks && negb leading_spaces && (ch =? cLF)
              && negb (is_blankz (nth_error (drop_breaks r) 1))) put_break ;;
        write_break ch ;; set_indention true ;; folded_loop true leading_spaces r
      else
        when breaks write_indent ;;
        let leading_spaces := if breaks then is_blank (Some ch) else leading_spaces in
        s <- get ;;
        (if negb breaks && (ch =? cSP) && negb (is_space (hd_opt r)) && (em_best_width s <? em_column s)%Z
         then write_indent else write_char ch) ;;
        set_indention false ;; folded_loop false leading_spaces r
  end.
Definition write_folded_scalar (v : str) : M est unit :=
  write_indicator [cGT] true false false ;;
  write_block_scalar_hints v ;;
  put_break ;;
  set_ws true true ;;
  folded_loop true true v.

(** 142-173 [Analysis] and its parts *)
Record scalar_analysis := Mk_sa {
  sa_value : str; sa_multiline : bool; sa_flow_plain_allowed : bool; sa_block_plain_allowed : bool;
  sa_single_quoted_allowed : bool; sa_block_allowed : bool; sa_style : scalar_style }.
Record analysis := Mk_analysis {
  an_anchor_a : option (str * bool);      (* AnchorAnalysis: anchor, alias *)
  an_tag : option (str * str);            (* TagAnalysis: handle, suffix *)
  an_scalar : option scalar_analysis }.
Definition analysis_default : analysis := Mk_analysis None None None.

(** 1061-1068 [analyze_version_directive] *)
Definition analyze_version_directive (v : version_directive) : M est unit :=
  if negb (vd_major v =? 1)%Z || negb (vd_minor v =? 1)%Z && negb (vd_minor v =? 2)%Z
  then emitter_error "incompatible %YAML directive" else ret tt.

(** 1070-1096 [analyze_tag_directive]; the handle starts and ends with '!', so the slice
    [1..len-1] removes its first and last char. *)
Definition analyze_tag_directive (t : tag_directive) : M est unit :=
  let h := td_handle t in
  if is_empty h then emitter_error "tag handle must not be empty"
  else if negb (starts_with cBANG h) then emitter_error "tag handle must start with '!'"
  else if negb (ends_with cBANG h) then emitter_error "tag handle must end with '!'"
  else if (2 <? str_len h) && negb (forallb is_alpha_c (removelast (tl h)))
  then emitter_error "tag handle must contain alphanumerical characters only"
  else if is_empty (td_prefix t) then emitter_error "tag prefix must not be empty"
  else ret tt.

(** 1098-1118 [analyze_anchor] *)
Definition analyze_anchor (anchor : str) (alias : bool) : M est (str * bool) :=
  if is_empty anchor then
    emitter_error (if alias then "alias value must not be empty" else "anchor value must not be empty")%string
  else if negb (forallb is_alpha_c anchor) then
    emitter_error (if alias then "alias value must contain alphanumerical characters only"
                   else "anchor value must contain alphanumerical characters only")%string
  else ret (anchor, alias).

(** Slicing a str at a byte index: [None] when the index is inside a character (a panic). *)
Fixpoint split_bytes (n : N) (l : str) : option (str * str) :=
  if n =? 0 then Some ([], l)
  else match l with
       | [] => None
       | c :: r => if n <? len_utf8 c then None
                   else match split_bytes (n - len_utf8 c) r with
                        | Some (a, b) => Some (c :: a, b)
                        | None => None
                        end
       end.

(** 1120-1141 [analyze_tag] *)
Fixpoint analyze_tag_loop (tag : str) (tds : list tag_directive) : M est (str * str) :=
  match tds with
  | [] => ret ([], tag)
  | td :: r =>
      let n := str_len (td_prefix td) in
      if n <? str_len tag then
        match split_bytes n tag with
        | None => panics PCharBoundary
        | Some (a, b) => if str_eqb (td_prefix td) a then ret (td_handle td, b)
                         else analyze_tag_loop tag r
        end
      else analyze_tag_loop tag r
  end.
Definition analyze_tag (tag : str) (tds : list tag_directive) : M est (str * str) :=
  if is_empty tag then emitter_error "tag value must not be empty" else analyze_tag_loop tag tds.

(** The flags collected by the loop of [analyze_scalar]. *)
Record sflags := Mk_sf {
  f_block_indicators : bool; f_flow_indicators : bool; f_line_breaks : bool; f_special : bool;
  f_leading_space : bool; f_leading_break : bool; f_trailing_space : bool; f_trailing_break : bool;
  f_break_space : bool; f_space_break : bool;
  f_previous_space : bool; f_previous_break : bool; f_preceded_by_whitespace : bool }.

(** 1182-1216: (flow indicator, block indicator) contributed by one character *)
Definition indicators_first (ch : char) (followed_by_whitespace : bool) : bool * bool :=
  if existsb (N.eqb ch) [cHASH; cCOMMA; cLBRK; cRBRK; cLBRC; cRBRC; cAMP; cSTAR; cBANG; cPIPE; cGT;
                         cSQ; cDQ; cPCT; cAT; cBTICK] then (true, true)
  else if (ch =? cQM) || (ch =? cCOLON) then (true, followed_by_whitespace)
  else if (ch =? cMINUS) && followed_by_whitespace then (true, true)
  else (false, false).
Definition indicators_next (ch : char) (followed_by_whitespace preceded_by_whitespace : bool) : bool * bool :=
  if existsb (N.eqb ch) [cCOMMA; cQM; cLBRK; cRBRK; cLBRC; cRBRC] then (true, false)
  else if ch =? cCOLON then (true, followed_by_whitespace)
  else if (ch =? cHASH) && preceded_by_whitespace then (true, true)
  else (false, false).

(** 1179-1258: the loop of [analyze_scalar] *)
Fixpoint analyze_loop (unicode first : bool) (f : sflags) (l : str) : sflags :=
  match l with
  | [] => f
  | ch :: r =>
      let next := hd_opt r in
      let '(fi, bi) := if first then indicators_first ch (is_blankz next)
                       else indicators_next ch (is_blankz next) (f_preceded_by_whitespace f) in
      let space := ch =? cSP in
      let brk := negb space && is_break_c ch in
      let f' := Mk_sf
        (f_block_indicators f || bi)
        (f_flow_indicators f || fi)
        (f_line_breaks f || is_break_c ch)
        (f_special f || negb (is_printable ch) || negb (is_ascii ch) && negb unicode)
        (f_leading_space f || space && first)
        (f_leading_break f || brk && first)
        (f_trailing_space f || space && is_z next)
        (f_trailing_break f || brk && is_z next)
        (f_break_space f || space && f_previous_break f)
        (f_space_break f || brk && f_previous_space f)
        space brk
        (is_blankz (Some ch)) in
      analyze_loop unicode false f' r
  end.
Definition starts_doc_marker (v : str) : bool :=
  str_eqb (firstn 3 v) (lit "---") || str_eqb (firstn 3 v) (lit "...").

(** 1143-1304 [analyze_scalar] *)
Definition analyze_scalar (unicode : bool) (v : str) : scalar_analysis :=
  if is_empty v then Mk_sa [] false false true true false SAny
  else
    let d := starts_doc_marker v in
    let f := analyze_loop unicode true
               (Mk_sf d d false false false false false false false false false false true) v in
    let ends := f_leading_space f || f_leading_break f || f_trailing_space f || f_trailing_break f in
    let hard := f_space_break f || f_special f in
    Mk_sa v (f_line_breaks f)
      (negb (ends || f_break_space f || hard || f_line_breaks f || f_flow_indicators f))
      (negb (ends || f_break_space f || hard || f_line_breaks f || f_block_indicators f))
      (negb (f_break_space f || hard))
      (negb (f_trailing_space f || hard))
      SAny.

(** 1306-1359 [analyze_event] *)
Definition analyze_opt_anchor (a : option str) : M est (option (str * bool)) :=
  match a with None => ret None | Some a => r <- analyze_anchor a false ;; ret (Some r) end.
Definition analyze_opt_tag (t : option str) (cond : bool) (tds : list tag_directive)
  : M est (option (str * str)) :=
  match t with
  | Some t => if cond then r <- analyze_tag t tds ;; ret (Some r) else ret None
  | None => ret None
  end.
Definition analyze_event (e : event) (tds : list tag_directive) : M est analysis :=
  s <- get ;;
  match e_data e with
  | EvAlias a => r <- analyze_anchor a true ;; ret (Mk_analysis (Some r) None None)
  | EvScalar a t v pi qi _ =>
      ra <- analyze_opt_anchor a ;;
      rt <- analyze_opt_tag t (em_canonical s || negb pi && negb qi) tds ;;
      ret (Mk_analysis ra rt (Some (analyze_scalar (em_unicode s) v)))
  | EvSequenceStart a t i _ | EvMappingStart a t i _ =>
      ra <- analyze_opt_anchor a ;;
      rt <- analyze_opt_tag t (em_canonical s || negb i) tds ;;
      ret (Mk_analysis ra rt None)
  | _ => ret analysis_default
  end.

(** 888-904 check_empty_sequence, check_empty_mapping on the queued events *)
Definition check_empty_sequence (e : event_data) (s : est) : bool :=
  match e, em_events s with
  | EvSequenceStart _ _ _ _, n :: _ => match e_data n with EvSequenceEnd => true | _ => false end
  | _, _ => false
  end.
Definition check_empty_mapping (e : event_data) (s : est) : bool :=
  match e, em_events s with
  | EvMappingStart _ _ _ _, n :: _ => match e_data n with EvMappingEnd => true | _ => false end
  | _, _ => false
  end.

(** 906-949 [check_simple_key] *)
Definition check_simple_key (e : event) (an : analysis) : M est bool :=
  s <- get ;;
  let alen := match an_anchor_a an with Some (a, _) => str_len a | None => 0 end in
  let tlen := match an_tag an with Some (h, x) => str_len h + str_len x | None => 0 end in
  match e_data e with
  | EvAlias _ => ret (alen <=? 128)
  | EvScalar _ _ _ _ _ _ =>
      match an_scalar an with
      | None => panics PNoScalarAnalysis
      | Some sa => ret (negb (sa_multiline sa) && (alen + tlen + str_len (sa_value sa) <=? 128))
      end
  | EvSequenceStart _ _ _ _ => ret (check_empty_sequence (e_data e) s && (alen + tlen <=? 128))
  | EvMappingStart _ _ _ _ => ret (check_empty_mapping (e_data e) s && (alen + tlen <=? 128))
  | _ => ret false
  end.

(** 951-1013 [select_scalar_style]: the chosen style and the updated tag analysis *)
Definition choose_style (s : est) (pi : bool) (style : scalar_style) (sa : scalar_analysis) (no_tag : bool)
  : scalar_style :=
  let style := if style_eqb style SAny then SPlain else style in
  let style := if em_canonical s then SDouble else style in
  let style := if em_simple_key_context s && sa_multiline sa then SDouble else style in
  let flow := negb (em_flow_level s =? 0)%Z in
  let style :=
    if style_eqb style SPlain then
      if (flow && negb (sa_flow_plain_allowed sa) || negb flow && negb (sa_block_plain_allowed sa))
         || is_empty (sa_value sa) && (flow || em_simple_key_context s)
         || no_tag && negb pi
      then SSingle else style
    else style in
  let style := if style_eqb style SSingle && negb (sa_single_quoted_allowed sa) then SDouble else style in
  if (style_eqb style SLiteral || style_eqb style SFolded)
     && (negb (sa_block_allowed sa) || flow || em_simple_key_context s)
  then SDouble else style.
Definition select_scalar_style (pi qi : bool) (style : scalar_style) (sa : scalar_analysis)
           (tag : option (str * str)) : M est (scalar_style * option (str * str)) :=
  s <- get ;;
  let no_tag := match tag with None => true | Some _ => false end in
  if no_tag && negb pi && negb qi then emitter_error "neither tag nor implicit flags are specified"
  else
    let style := choose_style s pi style sa no_tag in
    ret (style, if no_tag && negb qi && negb (style_eqb style SPlain) then Some (lit "!", []) else tag).

(** 1015-1022 [process_anchor] *)
Definition process_anchor (a : option (str * bool)) : M est unit :=
  match a with
  | None => ret tt
  | Some (v, alias) => write_indicator (if alias then [cSTAR] else [cAMP]) true false false ;; write_anchor v
  end.

(** 1024-1044 [process_tag] *)
Definition process_tag (t : option (str * str)) : M est unit :=
  match t with
  | None => ret tt
  | Some (h, x) =>
      if is_empty h && is_empty x then ret tt
      else if is_empty h then
        write_indicator [cBANG; cLT] true false false ;;
        write_tag_content x false ;;
        write_indicator [cGT] false false false
      else
        write_tag_handle h ;;
        when (negb (is_empty x)) (write_tag_content x false)
  end.

(** 1046-1059 [process_scalar] *)
Definition process_scalar (v : str) (style : scalar_style) : M est unit :=
  s <- get ;;
  let b := negb (em_simple_key_context s) in
  match style with
  | SPlain => write_plain_scalar v b
  | SSingle => write_single_quoted_scalar v b
  | SDouble => write_double_quoted_scalar v b
  | SLiteral => write_literal_scalar v
  | SFolded => write_folded_scalar v
  | SAny => panics PUnreachable
  end.

(** 811-818 [emit_alias] *)
Definition emit_alias (an : analysis) : M est unit :=
  process_anchor (an_anchor_a an) ;;
  s <- get ;;
  when (em_simple_key_context s) (put cSP) ;;
  pop_estate.

(** 820-838 [emit_scalar] *)
Definition emit_scalar (pi qi : bool) (style : scalar_style) (an : analysis) : M est unit :=
  match an_scalar an with
  | None => panics PUnreachable
  | Some sa =>
      '(style, tag) <- select_scalar_style pi qi style sa (an_tag an) ;;
      process_anchor (an_anchor_a an) ;;
      process_tag tag ;;
      increase_indent true false ;;
      process_scalar (sa_value sa) style ;;
      pop_indent ;;
      pop_estate
  end.

Definition is_flow_seq (st : seq_style) : bool := match st with SeqFlow => true | _ => false end.
Definition is_flow_map (st : map_style) : bool := match st with MapFlow => true | _ => false end.

(** 840-860 [emit_sequence_start], 862-882 [emit_mapping_start] *)
Definition emit_sequence_start (e : event_data) (st : seq_style) (an : analysis) : M est unit :=
  process_anchor (an_anchor_a an) ;;
  process_tag (an_tag an) ;;
  s <- get ;;
  goto_estate (if negb (em_flow_level s =? 0)%Z || em_canonical s || is_flow_seq st || check_empty_sequence e s
               then EFlowSequenceFirstItem else EBlockSequenceFirstItem).
Definition emit_mapping_start (e : event_data) (st : map_style) (an : analysis) : M est unit :=
  process_anchor (an_anchor_a an) ;;
  process_tag (an_tag an) ;;
  s <- get ;;
  goto_estate (if negb (em_flow_level s =? 0)%Z || em_canonical s || is_flow_map st || check_empty_mapping e s
               then EFlowMappingFirstKey else EBlockMappingFirstKey).

(** 786-809 [emit_node] *)
Definition emit_node (e : event) (root sequence mapping simple_key : bool) (an : analysis) : M est unit :=
  modify (fun s => set_em_simple_key_context simple_key (set_em_mapping_context mapping
                     (set_em_sequence_context sequence (set_em_root_context root s)))) ;;
  match e_data e with
  | EvAlias _ => emit_alias an
  | EvScalar _ _ _ pi qi st => emit_scalar pi qi st an
  | EvSequenceStart _ _ _ st => emit_sequence_start (e_data e) st an
  | EvMappingStart _ _ _ st => emit_mapping_start (e_data e) st an
  | _ => emitter_error "expected SCALAR, SEQUENCE-START, MAPPING-START, or ALIAS"
  end.

(** 493-526 [emit_stream_start]; i32::MAX = 2147483647 *)
Definition normalise_settings (e : encoding) (s : est) : est :=
  let s := if encoding_eqb (em_encoding s) EncAny then set_em_encoding e s else s in
  let s := if encoding_eqb (em_encoding s) EncAny then set_em_encoding Utf8 s else s in
  let s := if ((em_best_indent s <? 2) || (9 <? em_best_indent s))%Z then set_em_best_indent 2%Z s else s in
  let s := if ((0 <=? em_best_width s) && (em_best_width s <=? em_best_indent s * 2))%Z
           then set_em_best_width 80%Z s else s in
  let s := if (em_best_width s <? 0)%Z then set_em_best_width 2147483647%Z s else s in
  let s := match em_line_break s with BrAny => set_em_line_break BrLn s | _ => s end in
  set_em_indention true (set_em_whitespace true (set_em_column 0%Z (set_em_line 0%Z (set_em_indent (-1)%Z s)))).
Definition emit_stream_start (e : event) : M est unit :=
  modify (set_em_open_ended 0%Z) ;;
  match e_data e with
  | EvStreamStart enc =>
      modify (normalise_settings enc) ;;
      s <- get ;;
      when (negb (encoding_eqb (em_encoding s) Utf8)) write_bom ;;
      goto_estate EFirstDocumentStart
  | _ => emitter_error "expected STREAM-START"
  end.

(** 528-609 [emit_document_start]; check_empty_document (883-885) is constantly false. *)
Definition emit_document_start (e : event) (first : bool) : M est unit :=
  match e_data e with
  | EvDocumentStart vd tds implicit =>
      match vd with Some v => analyze_version_directive v | None => ret tt end ;;
      iterM (fun t => analyze_tag_directive t ;; em_append_tag_directive t false) tds ;;
      iterM (fun t => em_append_tag_directive t true) default_tag_directives ;;
      s <- get ;;
      let implicit := implicit && first && negb (em_canonical s) in
      when ((match vd with Some _ => true | None => false end || negb (is_empty tds))
            && negb (em_open_ended s =? 0)%Z)
        (write_indicator (lit "...") true false false ;; write_indent) ;;
      modify (set_em_open_ended 0%Z) ;;
      match vd with
      | Some v =>
          write_indicator (lit "%YAML") true false false ;;
          write_indicator (if (vd_minor v =? 1)%Z then lit "1.1" else lit "1.2") true false false ;;
          write_indent
      | None => ret tt
      end ;;
      iterM (fun t =>
        write_indicator (lit "%TAG") true false false ;;
        write_tag_handle (td_handle t) ;;
        write_tag_content (td_prefix t) true ;;
        write_indent) tds ;;
      let implicit := implicit && match vd with Some _ => false | None => true end && is_empty tds in
      when (negb implicit)
        (write_indent ;;
         write_indicator (lit "---") true false false ;;
         when (em_canonical s) write_indent) ;;
      goto_estate EDocumentContent ;;
      modify (set_em_open_ended 0%Z)
  | EvStreamEnd =>
      s <- get ;;
      when (em_open_ended s =? 2)%Z
        (write_indicator (lit "...") true false false ;;
         modify (set_em_open_ended 0%Z) ;; write_indent) ;;
      flush ;;
      goto_estate EEnd
  | _ => emitter_error "expected DOCUMENT-START or STREAM-END"
  end.

(** 611-614 [emit_document_content] *)
Definition emit_document_content (e : event) (an : analysis) : M est unit :=
  push_estate EDocumentEnd ;; emit_node e true false false false an.

(** 616-634 [emit_document_end] *)
Definition emit_document_end (e : event) : M est unit :=
  match e_data e with
  | EvDocumentEnd implicit =>
      write_indent ;;
      s <- get ;;
      (if negb implicit then
         write_indicator (lit "...") true false false ;;
         modify (set_em_open_ended 0%Z) ;; write_indent
       else when (em_open_ended s =? 0)%Z (modify (set_em_open_ended 1%Z))) ;;
      flush ;;
      goto_estate EDocumentStart ;;
      modify (set_em_tag_directives [])
  | _ => emitter_error "expected DOCUMENT-END"
  end.

Definition add_flow_level (n : Z) : M est unit := modify (fun s => set_em_flow_level (em_flow_level s + n)%Z s).
(** [if self.canonical || self.column > self.best_width { self.write_indent()? }] *)
Definition wrap_line : M est unit :=
  s <- get ;; when (em_canonical s || (em_best_width s <? em_column s)%Z) write_indent.
(** The end of a flow collection (648-656, 680-689). *)
Definition close_flow (first : bool) (closing : char) : M est unit :=
  add_flow_level (-1) ;;
  pop_indent ;;
  s <- get ;;
  when (em_canonical s && negb first) (write_indicator [cCOMMA] false false false ;; write_indent) ;;
  write_indicator [closing] false false false ;;
  pop_estate.

(** 636-666 [emit_flow_sequence_item] *)
Definition emit_flow_sequence_item (e : event) (first : bool) (an : analysis) : M est unit :=
  when first (write_indicator [cLBRK] true true false ;; increase_indent true false ;; add_flow_level 1) ;;
  match e_data e with
  | EvSequenceEnd => close_flow first cRBRK
  | _ =>
      when (negb first) (write_indicator [cCOMMA] false false false) ;;
      wrap_line ;;
      push_estate EFlowSequenceItem ;;
      emit_node e false true false false an
  end.

(** 668-705 [emit_flow_mapping_key] *)
Definition emit_flow_mapping_key (e : event) (first : bool) (an : analysis) : M est unit :=
  when first (write_indicator [cLBRC] true true false ;; increase_indent true false ;; add_flow_level 1) ;;
  match e_data e with
  | EvMappingEnd => close_flow first cRBRC
  | _ =>
      when (negb first) (write_indicator [cCOMMA] false false false) ;;
      wrap_line ;;
      s <- get ;;
      simple <- (if em_canonical s then ret false else check_simple_key e an) ;;
      if simple : bool then
        push_estate EFlowMappingSimpleValue ;;
        emit_node e false false true true an
      else
        write_indicator [cQM] true false false ;;
        push_estate EFlowMappingValue ;;
        emit_node e false false true false an
  end.

(** 707-723 [emit_flow_mapping_value] *)
Definition emit_flow_mapping_value (e : event) (simple : bool) (an : analysis) : M est unit :=
  (if simple then write_indicator [cCOLON] false false false
   else wrap_line ;; write_indicator [cCOLON] true false false) ;;
  push_estate EFlowMappingKey ;;
  emit_node e false false true false an.

(** 725-743 [emit_block_sequence_item] *)
Definition emit_block_sequence_item (e : event) (first : bool) (an : analysis) : M est unit :=
  s <- get ;;
  when first (increase_indent false (em_mapping_context s && negb (em_indention s))) ;;
  match e_data e with
  | EvSequenceEnd => pop_indent ;; pop_estate
  | _ =>
      write_indent ;;
      write_indicator [cMINUS] true false true ;;
      push_estate EBlockSequenceItem ;;
      emit_node e false true false false an
  end.

(** 745-768 [emit_block_mapping_key] *)
Definition emit_block_mapping_key (e : event) (first : bool) (an : analysis) : M est unit :=
  when first (increase_indent false false) ;;
  match e_data e with
  | EvMappingEnd => pop_indent ;; pop_estate
  | _ =>
      write_indent ;;
      simple <- check_simple_key e an ;;
      if simple : bool then
        push_estate EBlockMappingSimpleValue ;;
        emit_node e false false true true an
      else
        write_indicator [cQM] true false true ;;
        push_estate EBlockMappingValue ;;
        emit_node e false false true false an
  end.

(** 770-784 [emit_block_mapping_value] *)
Definition emit_block_mapping_value (e : event) (simple : bool) (an : analysis) : M est unit :=
  (if simple then write_indicator [cCOLON] false false false
   else write_indent ;; write_indicator [cCOLON] true false true) ;;
  push_estate EBlockMappingKey ;;
  emit_node e false false true false an.

(** 456-491 [state_machine] *)
Definition em_state_machine (e : event) (an : analysis) : M est unit :=
  s <- get ;;
  match em_state s with
  | EStreamStart => emit_stream_start e
  | EFirstDocumentStart => emit_document_start e true
  | EDocumentStart => emit_document_start e false
  | EDocumentContent => emit_document_content e an
  | EDocumentEnd => emit_document_end e
  | EFlowSequenceFirstItem => emit_flow_sequence_item e true an
  | EFlowSequenceItem => emit_flow_sequence_item e false an
  | EFlowMappingFirstKey => emit_flow_mapping_key e true an
  | EFlowMappingKey => emit_flow_mapping_key e false an
  | EFlowMappingSimpleValue => emit_flow_mapping_value e true an
  | EFlowMappingValue => emit_flow_mapping_value e false an
  | EBlockSequenceFirstItem => emit_block_sequence_item e true an
  | EBlockSequenceItem => emit_block_sequence_item e false an
  | EBlockMappingFirstKey => emit_block_mapping_key e true an
  | EBlockMappingKey => emit_block_mapping_key e false an
  | EBlockMappingSimpleValue => emit_block_mapping_value e true an
  | EBlockMappingValue => emit_block_mapping_value e false an
  | EEnd => emitter_error "expected nothing after STREAM-END"
  end.

(** 304-315: one event taken from the queue (the body of the loop of [emit]) *)
Definition emit_one (e : event) : M est unit :=
  s <- get ;;
  let tds := em_tag_directives s in
  modify (set_em_tag_directives []) ;;
  an <- analyze_event e tds ;;
  em_state_machine e an ;;
  modify (fun s => if is_empty (em_tag_directives s) then set_em_tag_directives tds s else s).

(** 302-317 [emit]; every iteration takes an event off the queue *)
Definition emit (e : event) : M est unit :=
  modify (fun s => set_em_events (em_events s ++ [e]) s) ;;
  (fun s => loopM (S (length (em_events s))) (fun _ : unit =>
     o <- needs_mode_events ;;
     match o with
     | None => ret (inr tt)
     | Some e => emit_one e ;; ret (inl tt)
     end) tt s).

(** 221-227 [open], 233-242 [close] *)
Definition emitter_open : M est unit :=
  s <- get ;;
  if em_opened s then panics PAssert
  else emit (event_new (EvStreamStart EncAny)) ;; modify (set_em_opened true).
Definition emitter_close : M est unit :=
  s <- get ;;
  if negb (em_opened s) then panics PAssert
  else if em_closed s then ret tt
  else emit (event_new EvStreamEnd) ;; modify (set_em_closed true).

(** 265-268 [set_encoding], 247-256 [set_output_string] (the output buffer is cleared),
    259-262 [set_output] *)
Definition em_set_encoding (e : encoding) : M est unit := fun s =>
  if encoding_eqb (em_encoding s) EncAny then (Ok tt, set_em_encoding e s) else (Panic PAssert, s).
Definition em_set_output_string : M est unit :=
  s <- get ;;
  match em_writer s with
  | Some _ => panics PAssert
  | None =>
      (if encoding_eqb (em_encoding s) EncAny then em_set_encoding Utf8
       else if encoding_eqb (em_encoding s) Utf8 then ret tt else panics PAssert) ;;
      modify (set_em_writer (Some (Mk_writer [] [])))
  end.
Definition em_set_output (w : writer) : M est unit :=
  s <- get ;;
  match em_writer s with
  | Some _ => panics PAssert
  | None => modify (set_em_writer (Some w))
  end.

(** 272-297 set_canonical, set_indent, set_width, set_unicode, set_break *)
Definition em_set_canonical (b : bool) : M est unit := modify (set_em_canonical b).
Definition em_set_indent (i : Z) : M est unit :=
  modify (set_em_best_indent (if ((1 <? i) && (i <? 10))%Z then i else 2%Z)).
Definition em_set_width (w : Z) : M est unit :=
  modify (set_em_best_width (if (0 <=? w)%Z then w else (-1)%Z)).
Definition em_set_unicode (b : bool) : M est unit := modify (set_em_unicode b).
Definition em_set_break (b : line_break) : M est unit := modify (set_em_line_break b).

(** 1814-1817 [reset_anchors] *)
Definition reset_anchors : M est unit := modify (fun s => set_em_last_anchor_id 0%Z (set_em_anchors [] s)).

(** [self.anchors[index as usize - 1]]: access and update of a Vec by a 1-based i32 index.
    Index 0 is a subtraction overflow in debug builds and out of bounds otherwise. *)
Definition vec_index (index : Z) : option nat :=
  if (1 <=? index)%Z then Some (Z.to_nat (index - 1)) else None.
Fixpoint upd {A} (n : nat) (f : A -> A) (l : list A) : list A :=
  match n, l with
  | _, [] => []
  | O, x :: r => f x :: r
  | S n', x :: r => x :: upd n' f r
  end.
Definition get_anchors (index : Z) : M est anchors := fun s =>
  match vec_index index with
  | None => (Panic PIndex, s)
  | Some n => match nth_error (em_anchors s) n with
              | Some a => (Ok a, s)
              | None => (Panic PIndex, s)
              end
  end.
Definition put_anchors (index : Z) (a : anchors) : M est unit := modify (fun s =>
  match vec_index index with
  | Some n => set_em_anchors (upd n (fun _ => a) (em_anchors s)) s
  | None => s
  end).

(** 1819-1825 [anchor_node_sub] *)
Definition anchor_node_sub (index : Z) : M est unit :=
  a <- get_anchors index ;;
  let refs := (an_references a + 1)%Z in
  if (refs =? 2)%Z then
    s <- get ;;
    let id := (em_last_anchor_id s + 1)%Z in
    modify (set_em_last_anchor_id id) ;;
    put_anchors index (Mk_anchors refs id (an_serialized a))
  else put_anchors index (Mk_anchors refs (an_anchor a) (an_serialized a)).

(** 1827-1829 [generate_anchor]: format!("id{anchor_id:03}") for a positive id *)
Fixpoint dec_go (fuel : nat) (n : N) (acc : list char) : list char :=
  match fuel with
  | O => acc
  | S f => if n <? 10 then 48 + n :: acc else dec_go f (n / 10) (48 + n mod 10 :: acc)
  end.
Definition decimal (n : N) : list char := dec_go (S (N.to_nat (N.size n))) n [].
Definition pad3 (l : list char) : list char := repeat 48 (3 - length l) ++ l.
Definition generate_anchor (id : Z) : str := lit "id" ++ pad3 (decimal (Z.to_N id)).
