(** LayItems.v -- a text in block or flow layout as a list of items, and the tokens the items stand for.

    [IPop] and [IMark] have no text: a block collection ends here; a simple key begins with the next token. *)
From Coq Require Import Lia ZifyBool ZifyNat ZifyN Bool.
From Verif Require Import Base Utf Chars State Reader Scanner Wp ScanFacts RoundScan RoundPlain EState Emitter EmitScalar EmitQuoted EmitGrammar Spec_EmitNames CanonLex CanonBody.
From Verif Require Spec_Lexical LexBase RoundLiteral.
Import Spec_Lexical (position, step_mark, breaks_line).
Open Scope N_scope.

Inductive item :=
| ISp | IBr | IPop | IMark
| IOpen (mp : bool) | IClose (mp : bool)
| IComma | IDash | IKey | IValue
| IName (alias : bool) (a : str)
| ITag (f : tag_form)
| IQuoted (single : bool) (ats : list atom)
| IPlain (flow : bool) (k : N) (ats : list atom)   (* [k]: a column the lines after the first are not left of *)
| ILit (li : bool) (n d : N) (p : str)             (* literal or folded; [n]: the indentation of the lines; [d]: the hint; [p]: the lines *)
| IStart | IEnd
| IVersion (d : N) | ITagDir (h x : str).

(** Kinds of simple keys: the first of a block mapping, a later one, one in a flow mapping. *)
Inductive kind := KRoll | KSame | KFlow.
(** The place for a simple key at a flow level: none possible; one that will not become a key; one that will. *)
Inductive slot := SOff | SMay | SLive (k : kind) (col used : N).
Inductive need := Free | Sep (colon : bool) | Blank | Gapped (some broken : bool)
| Lined (closed broken : bool).   (* after a literal scalar; [closed]: no line break may follow; [broken]: at a new line *)
Record lstate := LS { lv : N; lcol : N; lli : list N; lpop : list N; lal : bool; lsl : list slot; lsoon : bool; ln : need }.

Definition is_live (sl : slot) : bool := match sl with SLive _ _ _ => true | _ => false end.
Definition live (sl : list slot) : bool := existsb is_live sl.
Definition top (l : list N) : Z := match l with i :: _ => Z.of_N i | [] => (-1)%Z end.
Definition ins (k : kind) : list token_data := match k with KRoll => [TBlockMappingStart; TKey] | _ => [TKey] end.

(** ** Walking over a text *)
Definition cadv (x : N) (w : str) : N := fold_left (fun x c => if breaks_line c then 0 else x + 1) w x.
Definition has_break (w : str) : bool := existsb breaks_line w.
Definition bump (n : N) (sl : slot) : slot := match sl with SLive k c u => SLive k c (u + n) | x => x end.
Definition fresh_enough (sl : slot) : bool := match sl with SLive _ _ u => u <=? 1024 | _ => true end.
Definition walk (w : str) (s : lstate) : option lstate :=
  if has_break w then
    if live (lsl s) then None
    else Some (LS (lv s) (cadv (lcol s) w) (lli s) (lpop s) (lal s) (map (fun _ => SOff) (lsl s)) (lsoon s) (ln s))
  else
    let sl := map (bump (str_len w)) (lsl s) in
    if forallb fresh_enough sl then Some (LS (lv s) (cadv (lcol s) w) (lli s) (lpop s) (lal s) sl (lsoon s) (ln s)) else None.

(** ** Steps *)
Inductive gate := GNode | GSep | GVal | GMark.
Definition opens_gate (s : lstate) (g : gate) : bool :=
  match ln s with
  | Free => true
  | Sep colon => match g with GSep => true | GVal => colon | _ => false end
  | Blank => false
  | Gapped some broken =>
      match g with
      | GVal | GSep => true
      | GMark => broken
      | GNode => broken && (lv s =? 0) && (Z.of_N (lcol s) <=? top (lpop s ++ lli s))%Z
      end
  | Lined _ broken =>
      match g with
      | GSep => false
      | GMark => broken
      | GNode | GVal => broken && (lv s =? 0) && (Z.of_N (lcol s) <=? top (lpop s ++ lli s))%Z
      end
  end.
(** Before a token: the block collections that have ended are closed. *)
Definition flush (s : lstate) : option lstate :=
  if lv s =? 0 then
    if forallb (fun i => lcol s <? i) (lpop s) && (top (lli s) <=? Z.of_N (lcol s))%Z then
      Some (LS (lv s) (lcol s) (lli s) [] (lal s) (lsl s) (lsoon s) (ln s))
    else None
  else if is_empty (lpop s) then Some s else None.
Definition with_slots (li : list N) (sl : list slot) (s : lstate) : lstate := LS (lv s) (lcol s) li (lpop s) (lal s) sl false (ln s).
(** A token that may begin a simple key. *)
Definition save (s : lstate) : option (lstate * list token_data) :=
  match lsl s with
  | [] => None
  | sl :: r =>
      if lsoon s then
        if lal s && negb (live (lsl s)) then
          if lv s =? 0 then
            if (top (lli s) <? Z.of_N (lcol s))%Z then
              if lcol s <=? 2147483647 then Some (with_slots (lcol s :: lli s) (SLive KRoll (lcol s) 0 :: r) s, ins KRoll) else None
            else if (top (lli s) =? Z.of_N (lcol s))%Z then Some (with_slots (lli s) (SLive KSame (lcol s) 0 :: r) s, ins KSame) else None
          else Some (with_slots (lli s) (SLive KFlow (lcol s) 0 :: r) s, ins KFlow)
        else None
      else if lal s then
        if is_live sl || (lv s =? 0) && (top (lli s) =? Z.of_N (lcol s))%Z then None else Some (with_slots (lli s) (SMay :: r) s, [])
      else Some (s, [])
  end.
(** A token before which no simple key is possible any more. *)
Definition unsave (s : lstate) : option lstate :=
  match lsl s with
  | sl :: r => if is_live sl || lsoon s then None else Some (with_slots (lli s) (SOff :: r) s)
  | [] => None
  end.
Definition then_ (a : bool) (n : need) (s : lstate) : lstate := LS (lv s) (lcol s) (lli s) (lpop s) a (lsl s) (lsoon s) n.
Definition level (v : N) (s : lstate) : lstate := LS v (lcol s) (lli s) (lpop s) (lal s) (lsl s) (lsoon s) (ln s).
Definition slots_to (sl : list slot) (s : lstate) : lstate := LS (lv s) (lcol s) (lli s) (lpop s) (lal s) sl (lsoon s) (ln s).
(** An indicator that begins a block collection unless one is open at its column. *)
Definition roll (d : token_data) (s : lstate) : option (lstate * list token_data) :=
  if negb (lal s) then None
  else if (top (lli s) <? Z.of_N (lcol s))%Z then
    if lcol s <=? 2147483647 then Some (LS (lv s) (lcol s) (lcol s :: lli s) (lpop s) (lal s) (lsl s) (lsoon s) (ln s), [d]) else None
  else if (top (lli s) =? Z.of_N (lcol s))%Z then Some (s, []) else None.
(** A line that is no part of the block collections. *)
Definition outer_line (s : lstate) : option lstate :=
  if (lv s =? 0) && (lcol s =? 0) && is_empty (lli s) then
    match unsave s with Some s1 => Some (LS 0 0 [] [] false (lsl s1) false (ln s1)) | None => None end
  else None.

Definition option_bind {A B} (o : option A) (f : A -> option B) : option B := match o with Some a => f a | None => None end.
Notation "'do' x <- a ; b" := (option_bind a (fun x => b)) (at level 60, x pattern, a at next level, right associativity).
Definition guard (b : bool) : option unit := if b then Some tt else None.

(** White space behind a literal scalar. *)
Definition may_space (s : lstate) : bool := match ln s with Lined _ b => b && (Z.of_N (lcol s) <? top (lpop s ++ lli s))%Z | _ => true end.
Definition may_break (s : lstate) : bool := match ln s with Lined closed _ => negb closed | _ => true end.
Definition spaced (n : need) : need := match n with Gapped _ b => Gapped true b | Lined _ b => Lined true b | _ => Free end.
Definition broken_ (n : need) : need := match n with Gapped _ _ => Gapped true true | Lined _ _ => Lined false true | _ => Free end.
Definition may_direct (n : need) : bool := match n with Free => true | Lined _ b => b | _ => false end.
Definition lit_col (n d : N) (v : str) (t : Z) : bool :=
  (if RoundLiteral.hinted v then Z.of_N n =? (if 0 <=? t then t + Z.of_N d else Z.of_N d) else t <? Z.of_N n)%Z.

Section items.
Variable lf : str.
Definition itext (i : item) : str :=
  match i with
  | ISp => [32] | IBr => lf | IPop | IMark => []
  | IOpen mp => [if mp then 123 else 91] | IClose mp => [if mp then 125 else 93]
  | IComma => [44] | IDash => [45] | IKey => [63] | IValue => [58]
  | IName alias a => (if alias then 42 else 38) :: a
  | ITag f => form_text f
  | IQuoted single ats => quote_char single :: flat ats ++ [quote_char single]
  | IPlain _ _ ats => flat ats
  | ILit li n d v => (if li then 124 else 62) :: RoundLiteral.hint_text v d ++ RoundLiteral.chomp_text (RoundLiteral.chomp_of v) ++ lf ++ RoundLiteral.ltext lf (N.to_nat n) true v
  | IStart => lit "---" | IEnd => lit "..."
  | IVersion d => lit "%YAML 1." ++ [48 + d] ++ lf
  | ITagDir h x => lit "%TAG " ++ h ++ [32] ++ uri x ++ lf
  end.
(** What the tokens of an item are, apart from the ones that the layout adds. *)
Definition itok (i : item) : list token_data :=
  match i with
  | ISp | IBr | IPop | IMark => []
  | IOpen mp => [if mp then TFlowMappingStart else TFlowSequenceStart]
  | IClose mp => [if mp then TFlowMappingEnd else TFlowSequenceEnd]
  | IComma => [TFlowEntry] | IDash => [TBlockEntry] | IKey => [TKey] | IValue => [TValue]
  | IName alias a => [if alias then TAlias a else TAnchor a]
  | ITag f => [form_token f]
  | IQuoted single ats => [TScalar (den g0 ats) (if single then SSingle else SDouble)]
  | IPlain _ _ ats => [TScalar (den g0 ats) SPlain]
  | ILit li _ _ v => [TScalar (RoundLiteral.read_back li v) (if li then SLiteral else SFolded)]
  | IStart => [TDocumentStart] | IEnd => [TDocumentEnd]
  | IVersion d => [TVersionDirective 1 (Z.of_N d)] | ITagDir h x => [TTagDirective h x]
  end.
Definition lstep (s : lstate) (i : item) : option (lstate * list token_data) :=
  match i with
  | ISp => do _ <- guard (may_space s); do s1 <- walk [32] s; Some (then_ (lal s1) (spaced (ln s)) s1, [])
  | IBr => do _ <- guard (may_break s); do s1 <- walk lf s; Some (then_ (if lv s =? 0 then true else lal s) (broken_ (ln s)) s1, [])
  | IPop =>
      do _ <- guard ((lv s =? 0) && negb (live (lsl s)) && negb (lsoon s));
      match lli s with i :: r => Some (LS (lv s) (lcol s) r (lpop s ++ [i]) (lal s) (lsl s) (lsoon s) (ln s), [TBlockEnd]) | [] => None end
  | IMark =>
      do _ <- guard (negb (live (lsl s)) && negb (lsoon s));
      Some (LS (lv s) (lcol s) (lli s) (lpop s) (lal s) (lsl s) true (ln s), [])
  | IOpen _ =>
      do _ <- guard (opens_gate s GNode); do s1 <- flush s; do (s2, tk) <- save s1; do _ <- guard (lv s <? 2147483647);
      do s3 <- walk (itext i) (level (lv s + 1) (slots_to (SOff :: lsl s2) s2)); Some (then_ true Free s3, tk ++ itok i)
  | IClose _ =>
      do _ <- guard (opens_gate s GSep && (0 <? lv s)); do s1 <- flush s; do s2 <- unsave s1;
      do s3 <- walk (itext i) (level (lv s - 1) (slots_to (tl (lsl s2)) s2)); Some (then_ false (Sep true) s3, itok i)
  | IComma =>
      do _ <- guard (opens_gate s GSep && (0 <? lv s)); do s1 <- flush s; do s2 <- unsave s1;
      do s3 <- walk (itext i) s2; Some (then_ true Free s3, itok i)
  | IDash =>
      do _ <- guard (opens_gate s GNode && (lv s =? 0)); do s1 <- flush s; do (s2, tk) <- roll TBlockSequenceStart s1; do s3 <- unsave s2;
      do s4 <- walk (itext i) s3; Some (then_ true Blank s4, tk ++ itok i)
  | IKey =>
      do _ <- guard (opens_gate s GNode); do s1 <- flush s;
      do (s2, tk) <- (if lv s =? 0 then roll TBlockMappingStart s1 else Some (s1, [])); do s3 <- unsave s2;
      do s4 <- walk (itext i) s3; Some (then_ (lv s =? 0) Blank s4, tk ++ itok i)
  | IValue =>
      do _ <- guard (opens_gate s GVal && negb (lsoon s)); do s1 <- flush s;
      match lsl s1 with
      | SLive k _ _ :: r =>
          do _ <- guard (Bool.eqb (lv s =? 0) (match k with KFlow => false | _ => true end));
          do s2 <- walk (itext i) (slots_to (SOff :: r) s1); Some (then_ false Blank s2, itok i)
      | SOff :: r =>
          do _ <- guard (if lv s =? 0 then lal s && (top (lli s1) =? Z.of_N (lcol s))%Z else true);
          do s2 <- walk (itext i) s1; Some (then_ (lv s =? 0) Blank s2, itok i)
      | _ => None
      end
  | IName _ _ =>
      do _ <- guard (opens_gate s GNode); do s1 <- flush s; do (s2, tk) <- save s1;
      do s3 <- walk (itext i) s2; Some (then_ false (Sep false) s3, tk ++ itok i)
  | ITag _ =>
      do _ <- guard (opens_gate s GNode); do s1 <- flush s; do (s2, tk) <- save s1;
      do s3 <- walk (itext i) s2; Some (then_ false Blank s3, tk ++ itok i)
  | IQuoted _ _ =>
      do _ <- guard (opens_gate s GNode); do s1 <- flush s; do (s2, tk) <- save s1;
      do s3 <- walk (itext i) s2; Some (then_ false (Sep true) s3, tk ++ itok i)
  | IPlain flow k _ =>
      do _ <- guard (opens_gate s GNode); do s1 <- flush s; do (s2, tk) <- save s1;
      do _ <- guard (Bool.eqb flow (negb (lv s =? 0)) && (flow || (top (lli s2) <? Z.of_N k)%Z) && (k <=? lcol s + 1));
      do s3 <- walk (itext i) s2; Some (then_ false (Gapped false false) s3, tk ++ itok i)
  | ILit li n d v =>
      do _ <- guard (opens_gate s GNode && (lv s =? 0)); do s1 <- flush s; do s2 <- unsave s1; do _ <- guard (lit_col n d v (top (lli s2)));
      do s3 <- walk (itext i) s2; Some (then_ true (Lined (RoundLiteral.ends v) (RoundLiteral.ends v)) s3, itok i)
  | IStart | IEnd =>
      do _ <- guard (opens_gate s GMark); do s1 <- outer_line s; do s2 <- walk (itext i) s1; Some (then_ false Blank s2, itok i)
  | IVersion _ | ITagDir _ _ =>
      do _ <- guard (may_direct (ln s)); do s1 <- outer_line s; do s2 <- walk (itext i) s1; Some (then_ false Free s2, itok i)
  end.
End items.
