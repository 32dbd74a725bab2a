(** Spec_Lexical.v -- what a token says about the text it was read from.  Nothing here refers to the
    functions of the scanner: it is a lexical grammar, read from left to right. *)
From Verif Require Import Base.
Open Scope N_scope.

(** ** Positions *)
Definition utf8_size (c : char) : N := if c <? 128 then 1 else if c <? 2048 then 2 else if c <? 65536 then 3 else 4.
Definition breaks_line (c : char) : bool := (c =? 10) || (c =? 13) || (c =? 133) || (c =? 8232) || (c =? 8233).
Definition blank (c : char) : bool := (c =? 32) || (c =? 9).
(** Byte offset, line and column after a character; CR LF is one line break. *)
Definition step_mark (x : mark * bool) (c : char) : mark * bool :=
  let (m, cr) := x in
  if cr && (c =? 10) then (Mk_mark (m_index m + 1) (m_line m) 0, false)
  else if breaks_line c then (Mk_mark (m_index m + utf8_size c) (m_line m + 1) 0, c =? 13)
  else (Mk_mark (m_index m + utf8_size c) (m_line m) (m_col m + 1), false).
(** The position reached after the text [p]. *)
Definition position (p : str) : mark := fst (fold_left step_mark p (Mk_mark 0 0 0, false)).

(** ** Text between tokens: blanks, line breaks, comments up to the end of their line, and a byte
    order mark at the start of a line.  [gap p g r]: after [p], the text [g] can be skipped and [r]
    follows. *)
Definition starts_line_break (t : str) : Prop := match t with c :: _ => breaks_line c = true | [] => True end.
Inductive gap : str -> str -> str -> Prop :=
| G_nil p r : gap p [] r
| G_blank p c g r : blank c = true \/ breaks_line c = true \/ c = 65279 /\ m_col (position p) = 0 ->
    gap (p ++ [c]) g r -> gap p (c :: g) r
| G_comment p x g r : Forall (fun c => breaks_line c = false) x -> starts_line_break (g ++ r) ->
    gap (p ++ 35 :: x) g r -> gap p (35 :: x ++ g) r.

(** ** Line breaks inside scalars *)
(** The line breaks of a text, normalized: CR LF, CR, LF and NEL become LF; LS and PS are kept. *)
Fixpoint breaks_of (t : str) : str :=
  match t with
  | [] => []
  | c :: r =>
      if c =? 13 then 10 :: match r with d :: r' => if d =? 10 then breaks_of r' else breaks_of r | [] => [] end
      else if (c =? 10) || (c =? 133) then 10 :: breaks_of r
      else if (c =? 8232) || (c =? 8233) then c :: breaks_of r
      else breaks_of r
  end.
(** What a run of blanks and line breaks inside a plain or quoted scalar stands for: blanks alone
    stand for themselves; a single line feed for a space; otherwise the line breaks are kept, except
    a first line feed. *)
Definition folded (g : str) : str :=
  match breaks_of g with
  | [] => g
  | [c] => if c =? 10 then [32] else [c]
  | c :: r => if c =? 10 then r else c :: r
  end.
Definition filler (c : char) : bool := blank c || breaks_line c.
Definition no_filler (w : str) : Prop := match w with c :: _ => filler c = false | [] => True end.

(** ** Escape sequences *)
Definition hex_digit (c : char) : option N :=
  if (48 <=? c) && (c <=? 57) then Some (c - 48)
  else if (65 <=? c) && (c <=? 70) then Some (c - 55)
  else if (97 <=? c) && (c <=? 102) then Some (c - 87)
  else None.
Inductive hex : str -> N -> Prop :=
| H_nil : hex [] 0
| H_snoc w v c d : hex w v -> hex_digit c = Some d -> hex (w ++ [c]) (v * 16 + d).
Definition simple_escapes : list (char * char) :=
  [(48, 0); (97, 7); (98, 8); (116, 9); (9, 9); (110, 10); (118, 11); (102, 12); (114, 13); (101, 27); (32, 32); (34, 34); (47, 47); (92, 92);
   (78, 133); (95, 160); (76, 8232); (80, 8233)].
Inductive escape : str -> char -> Prop :=
| E_simple e c : In (e, c) simple_escapes -> escape [e] c
| E_hex e n w v : In (e, n) [(120, 2%nat); (117, 4%nat); (85, 8%nat)] -> length w = n -> hex w v ->
    v < 55296 \/ 57344 <= v < 1114112 -> escape (e :: w) v.

(** ** Plain and quoted scalars *)
Inductive flow_style := Plain | Single | Double.
(** [reads st w v]: the text [w] (without the quotes) stands for the value [v]. *)
Inductive reads (st : flow_style) : str -> str -> Prop :=
| R_nil : reads st [] []
| R_char c w v : filler c = false -> (st = Single -> c <> 39) -> (st = Double -> c <> 34 /\ c <> 92) ->
    reads st w v -> reads st (c :: w) (c :: v)
| R_quote w v : st = Single -> reads st w v -> reads st (39 :: 39 :: w) (39 :: v)
| R_gap g w v : g <> [] -> Forall (fun c => filler c = true) g -> no_filler w ->
    reads st w v -> reads st (g ++ w) (folded g ++ v)
| R_escape e c w v : st = Double -> escape e c -> reads st w v -> reads st (92 :: e ++ w) (c :: v)
| R_joined b g w v : st = Double -> breaks_line b = true -> Forall (fun c => filler c = true) g -> no_filler w ->
    reads st w v -> reads st (92 :: (b :: g) ++ w) (tl (breaks_of (b :: g)) ++ v).

(** ** Block scalars *)
(** A line with text: the text, its line break, and the empty lines after it. *)
Record block_line := Mk_line { bl_text : str; bl_break : str; bl_empty : str }.
Definition spaces (n : nat) : str := repeat 32 n.
(** Lines of at most [n] spaces. *)
Inductive empty_lines (n : nat) : str -> Prop :=
| EL_nil : empty_lines n []
| EL_cons k b e : (k <= n)%nat -> In b [[13; 10]; [13]; [10]; [133]; [8232]; [8233]] -> (b = [13] -> hd 0 e <> 10) ->
    empty_lines n e -> empty_lines n (spaces k ++ b ++ e).
Definition line_ok (n : nat) (l : block_line) : Prop :=
  bl_text l <> [] /\ Forall (fun c => breaks_line c = false) (bl_text l) /\
  In (bl_break l) [[13; 10]; [13]; [10]; [133]; [8232]; [8233]] /\ (bl_break l = [13] -> hd 0 (bl_empty l) <> 10) /\
  empty_lines n (bl_empty l).
Definition line_source (n : nat) (l : block_line) : str := spaces n ++ bl_text l ++ bl_break l ++ bl_empty l.
Definition blank_start (t : str) : bool := match t with c :: _ => blank c | [] => false end.
(** What stands between two lines. *)
Definition between (literal : bool) (l l' : block_line) : str :=
  if literal then breaks_of (bl_break l) ++ breaks_of (bl_empty l)
  else if negb (blank_start (bl_text l)) && negb (blank_start (bl_text l')) then folded (bl_break l ++ bl_empty l)
  else breaks_of (bl_break l) ++ breaks_of (bl_empty l).
Fixpoint block_value (literal : bool) (ls : list block_line) : str :=
  match ls with
  | [] => []
  | l :: r => bl_text l ++ match r with [] => [] | l' :: _ => between literal l l' ++ block_value literal r end
  end.
(** Chomping: the end of the last line. *)
Inductive chomping := Strip | Clip | Keep.
Definition chomped (c : chomping) (e0 : str) (ls : list block_line) : str :=
  match ls with
  | [] => match c with Keep => breaks_of e0 | _ => [] end
  | _ => let l := last ls (Mk_line [] [] []) in
         match c with Strip => [] | Clip => breaks_of (bl_break l) | Keep => breaks_of (bl_break l) ++ breaks_of (bl_empty l) end
  end.
(** The indicators after | or >: chomping and indentation, in any order. *)
Inductive block_header : str -> chomping -> option N -> Prop :=
| BH_none : block_header [] Clip None
| BH_chomp c x : In (c, x) [(43, Keep); (45, Strip)] -> block_header [c] x None
| BH_digit d : 49 <= d <= 57 -> block_header [d] Clip (Some (d - 48))
| BH_both c x d : In (c, x) [(43, Keep); (45, Strip)] -> 49 <= d <= 57 -> block_header [c; d] x (Some (d - 48))
| BH_both2 c x d : In (c, x) [(43, Keep); (45, Strip)] -> 49 <= d <= 57 -> block_header [d; c] x (Some (d - 48)).
(** [block literal w v]: the text [w] after the indicator stands for [v]. *)
Inductive block (literal : bool) : str -> str -> Prop :=
| Bl h ch d bs cm b n e0 ls :
    block_header h ch d -> Forall (fun c => blank c = true) bs ->
    cm = [] \/ (exists x, cm = 35 :: x /\ Forall (fun c => breaks_line c = false) x) ->
    (In b [[13; 10]; [13]; [10]; [133]; [8232]; [8233]] \/ b = [] /\ e0 = [] /\ ls = []) ->
    (b = [13] -> hd 0 e0 <> 10) ->
    (1 <= n)%nat -> (forall k, d = Some k -> k <= N.of_nat n) -> (d = None -> forall l, hd_error ls = Some l -> hd 0 (bl_text l) <> 32) ->
    empty_lines n e0 -> Forall (line_ok n) ls ->
    block literal (h ++ bs ++ cm ++ b ++ e0 ++ flat_map (line_source n) ls)
      ((match ls with [] => [] | _ => breaks_of e0 end) ++ block_value literal ls ++ chomped ch e0 ls).

(** ** Tags and directives *)
Definition word_char (c : char) : bool :=
  (48 <=? c) && (c <=? 57) || (65 <=? c) && (c <=? 90) || (97 <=? c) && (c <=? 122) || (c =? 95) || (c =? 45).
Definition uri_char (all : bool) (c : char) : bool :=
  word_char c || existsb (N.eqb c) [59; 47; 63; 58; 64; 38; 61; 43; 36; 46; 33; 126; 42; 39; 40; 41] || all && existsb (N.eqb c) [44; 91; 93].
(** [%XX] stands for the character of that number. *)
Inductive uri (all : bool) : str -> str -> Prop :=
| U_nil : uri all [] []
| U_char c w v : uri_char all c = true -> uri all w v -> uri all (c :: w) (c :: v)
| U_escape a b x y w v : hex_digit a = Some x -> hex_digit b = Some y -> uri all w v -> uri all (37 :: a :: b :: w) (x * 16 + y :: v).
Definition digits (w : str) (v : Z) : Prop :=
  w <> [] /\ Forall (fun c => 48 <= c <= 57) w /\ v = Z.of_N (fold_left (fun a c => a * 10 + (c - 48)) w 0).
Definition blanks (b : str) : Prop := b <> [] /\ Forall (fun c => blank c = true) b.
Definition word (w : str) : Prop := Forall (fun c => word_char c = true) w.

(** ** Tokens *)
(** [says d w]: the text of the token [d] is [w]. *)
Inductive says : token_data -> str -> Prop :=
| S_stream_start e : says (TStreamStart e) []
| S_stream_end : says TStreamEnd []
| S_version b x y ma mi : blanks b -> digits x ma -> digits y mi -> says (TVersionDirective ma mi) (lit "%YAML" ++ b ++ x ++ 46 :: y)
| S_tag_directive b h b' x p : blanks b -> (h = lit "!" \/ exists w, h = lit "!" ++ w ++ lit "!" /\ word w) -> blanks b' -> x <> [] -> uri true x p ->
    says (TTagDirective h p) (lit "%TAG" ++ b ++ h ++ b' ++ x)
| S_document_start : says TDocumentStart (lit "---")
| S_document_end : says TDocumentEnd (lit "...")
| S_block_sequence : says TBlockSequenceStart []
| S_block_mapping : says TBlockMappingStart []
| S_block_end : says TBlockEnd []
| S_flow_sequence : says TFlowSequenceStart (lit "[")
| S_flow_sequence_end : says TFlowSequenceEnd (lit "]")
| S_flow_mapping : says TFlowMappingStart (lit "{")
| S_flow_mapping_end : says TFlowMappingEnd (lit "}")
| S_block_entry : says TBlockEntry (lit "-")
| S_flow_entry : says TFlowEntry (lit ",")
| S_key : says TKey (lit "?")
| S_simple_key : says TKey []
| S_value : says TValue (lit ":")
| S_alias a : a <> [] -> word a -> says (TAlias a) (42 :: a)
| S_anchor a : a <> [] -> word a -> says (TAnchor a) (38 :: a)
| S_tag_verbatim x u : x <> [] -> uri true x u -> says (TTag [] u) (lit "!<" ++ x ++ lit ">")
| S_tag_bang : says (TTag [] (lit "!")) (lit "!")
| S_tag_primary x u : u <> [] -> uri false x u -> says (TTag (lit "!") u) (33 :: x)
| S_tag_handle w x u : word w -> x <> [] -> uri false x u -> says (TTag (lit "!" ++ w ++ lit "!") u) (lit "!" ++ w ++ lit "!" ++ x)
| S_plain w v : no_filler w -> no_filler (rev w) -> w <> [] -> reads Plain w v -> says (TScalar v SPlain) w
| S_single w v : reads Single w v -> says (TScalar v SSingle) (39 :: w ++ [39])
| S_double w v : reads Double w v -> says (TScalar v SDouble) (34 :: w ++ [34])
| S_literal w v : block true w v -> says (TScalar v SLiteral) (124 :: w)
| S_folded w v : block false w v -> says (TScalar v SFolded) (62 :: w).

(** The marks of the tokens: the positions before and after their text.  At the end of the stream the
    marks of the last tokens are at the start of a new line. *)
Definition next_line_start (m : mark) : mark := Mk_mark (m_index m) (m_line m + 1) 0.
Definition placed (T : str) (p q : str) (t : token) : Prop :=
  t_start t = position p /\ t_end t = position q \/
  p = T /\ q = T /\ (t_data t = TBlockEnd \/ t_data t = TStreamEnd) /\ t_start t = next_line_start (position T) /\ t_end t = next_line_start (position T).
(** Tokens and what stands around them.  [ends f r]: the text [r] is empty or starts with a character
    of [f]. *)
Definition ends (f : char -> bool) (r : str) : Prop := match r with c :: _ => f c = true | [] => True end.
Definition solid (r : str) : Prop := r <> [] /\ no_filler r.
Definition flow_indicator (c : char) : bool := existsb (N.eqb c) [44; 91; 93; 123; 125].
Definition indicator (c : char) : bool := flow_indicator c || existsb (N.eqb c) [45; 63; 58; 35; 38; 42; 33; 124; 62; 39; 34; 37; 64; 96].
(** Plain scalars: how they start; a colon in them is not followed by a blank or a line break, nor
    at the end of the text; a number sign in them is not preceded by one; in flow collections they
    do not contain the indicators [,[]{}]; and where they stop. *)
Definition plain_starts (in_flow : bool) (t : str) : Prop :=
  match t with
  | [] => False
  | c :: r => filler c = false /\ (indicator c = false \/ c = 45 /\ solid r \/ in_flow = false /\ (c = 63 \/ c = 58) /\ solid r)
  end.
Definition plain_stops (in_flow : bool) (r : str) : Prop :=
  ends filler r \/ (exists b, r = 58 :: b /\ ~ solid b) \/ in_flow = true /\ ends flow_indicator r.
Record plain_delimited (in_flow : bool) (w r : str) : Prop := {
  pd_starts : plain_starts in_flow (w ++ r);
  pd_colon : forall a b, w = a ++ 58 :: b -> solid (b ++ r);
  pd_hash : forall a c b, w = a ++ c :: 35 :: b -> filler c = false;
  pd_flow : in_flow = true -> Forall (fun c => flow_indicator c = false) w;
  pd_stops : plain_stops in_flow r }.
(** The token [d] of text [w] stands between [p] and [r], inside [n] flow collections. *)
Definition delimited (n : N) (p : str) (d : token_data) (w r : str) : Prop :=
  match d with
  | TStreamStart e => e = Utf8 \/ e = EncAny /\ r = []
  | TStreamEnd => r = []
  | TVersionDirective _ _ | TTagDirective _ _ => m_col (position p) = 0 /\ ends (fun c => filler c || (c =? 35)) r
  | TDocumentStart | TDocumentEnd => m_col (position p) = 0 /\ ends filler r
  | TBlockEntry | TTag _ _ => ends filler r
  | TKey | TValue => w <> [] -> n = 0 -> ends filler r
  | TAnchor _ | TAlias _ => ends (fun c => filler c || existsb (N.eqb c) [63; 58; 44; 93; 125; 37; 64; 96]) r
  | TScalar _ SPlain => plain_delimited (negb (n =? 0)) w r
  | TScalar _ SLiteral | TScalar _ SFolded => n = 0
  | _ => True
  end.
Definition flow_depth (n : N) (d : token_data) : N :=
  match d with
  | TFlowSequenceStart | TFlowMappingStart => n + 1
  | TFlowSequenceEnd | TFlowMappingEnd => N.pred n
  | _ => n
  end.
(** [covers T n p l q]: in the text [T], inside [n] flow collections, the tokens [l] cover the part
    after [p] up to the end of [q], one after the other, with nothing between them but gaps. *)
Inductive covers (T : str) : N -> str -> list token -> str -> Prop :=
| Cv_nil n p : covers T n p [] p
| Cv_cons n p g w r t l q :
    T = p ++ g ++ w ++ r -> gap p g (w ++ r) -> says (t_data t) w -> placed T (p ++ g) (p ++ g ++ w) t ->
    delimited n (p ++ g) (t_data t) w r ->
    covers T (flow_depth n (t_data t)) (p ++ g ++ w) l q -> covers T n p (t :: l) q.
