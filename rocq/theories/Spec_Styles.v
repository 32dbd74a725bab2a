(** Spec_Styles.v -- in which styles a string can be written.

    Everything is said by what stands where in the string: [spot v a x b] is the character [x] of
    [v], with [a] before and [b] behind it. *)
From Verif Require Import Base.
Open Scope N_scope.

Definition spot (v a : str) (x : char) (b : str) : Prop := v = a ++ x :: b.
Definition space (x : char) : Prop := x = 32.
(** LF, CR, NEL, LS, PS *)
Definition line_break (x : char) : Prop := x = 10 \/ x = 13 \/ x = 133 \/ x = 8232 \/ x = 8233.
(** Space or tab *)
Definition blank (x : char) : Prop := x = 32 \/ x = 9.
(** The printable characters, without tab, CR and NEL, which need an escape. *)
Definition printable (x : char) : Prop :=
  x = 10 \/ 32 <= x <= 126 \/ 160 <= x <= 55295 \/ 57344 <= x <= 65533 /\ x <> 65279 \/ 65536 <= x <= 1114111.
Definition writable (unicode : bool) (x : char) : Prop := printable x /\ (unicode = true \/ x < 128).

(** The string behind / before a character begins / ends with white space, or is empty. *)
Definition white (x : char) : Prop := blank x \/ line_break x.
Definition white_behind (b : str) : Prop := match b with [] => True | y :: _ => white y end.
Definition white_before (a : str) : Prop := a = [] \/ exists a' y, a = a' ++ [y] /\ white y.

(** No space at the beginning of a line or at its end, inside the string. *)
Definition no_break_space (v : str) : Prop := forall a y b x, v = a ++ y :: x :: b -> line_break y -> ~ space x.
Definition no_space_break (v : str) : Prop := forall a y b x, v = a ++ y :: x :: b -> space y -> ~ line_break x.

(** Single quotes: all characters written as they are, and no space next to a line break. *)
Definition single_text (unicode : bool) (v : str) : Prop :=
  Forall (writable unicode) v /\ no_break_space v /\ no_space_break v.
(** Block scalars: no space at the end of a line. *)
Definition block_text (unicode : bool) (v : str) : Prop :=
  Forall (writable unicode) v /\ no_space_break v /\ (forall a x, v = a ++ [x] -> ~ space x).

(** A plain scalar cannot begin with: hash, comma, brackets, braces, ampersand, star, bang, bar,
    greater-than, quotes, percent, at, backtick; question mark or colon, in flow context or followed
    by white space; minus followed by white space. *)
Definition bad_first (flow : bool) (x : char) (b : str) : Prop :=
  In x [35; 44; 91; 93; 123; 125; 38; 42; 33; 124; 62; 39; 34; 37; 64; 96] \/
  (x = 63 \/ x = 58) /\ (flow = true \/ white_behind b) \/
  x = 45 /\ white_behind b.
(** Further on: no colon followed by white space, no hash preceded by white space; in flow context
    no comma, question mark, bracket, brace or colon. *)
Definition bad_inside (flow : bool) (a : str) (x : char) (b : str) : Prop :=
  flow = true /\ In x [44; 63; 91; 93; 123; 125; 58] \/
  x = 58 /\ white_behind b \/
  x = 35 /\ white_before a.
Definition document_marker (v : str) : Prop := exists b, v = [45; 45; 45] ++ b \/ v = [46; 46; 46] ++ b.

(** Plain: one line, not beginning or ending with a space, without indicators. *)
Definition plain_text (unicode flow : bool) (v : str) : Prop :=
  Forall (writable unicode) v /\ Forall (fun x => ~ line_break x) v /\
  (forall x b, v = x :: b -> ~ space x /\ ~ bad_first flow x b) /\
  (forall a x, v = a ++ [x] -> ~ space x) /\
  (forall a x b, a <> [] -> spot v a x b -> ~ bad_inside flow a x b) /\
  ~ document_marker v.
(** The empty plain scalar is only possible where nothing else would be taken for the value. *)
Definition plain_allowed (unicode flow key : bool) (v : str) : Prop :=
  plain_text unicode flow v /\ (v = [] -> flow = false /\ key = false).

(** The style chosen for a value is one in which it can be written. *)
Definition safe_style (unicode flow key : bool) (v : str) (st : scalar_style) : Prop :=
  match st with
  | SAny => False
  | SPlain => plain_allowed unicode flow key v
  | SSingle => single_text unicode v
  | SDouble => True
  | SLiteral | SFolded => flow = false /\ key = false /\ block_text unicode v /\ v <> []
  end.
