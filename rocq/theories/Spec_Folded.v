(** Spec_Folded.v -- the strings that folded block scalars can carry.

    The emitter looks at the wrong character when it decides whether a line break must be doubled
    (see C34_folded_round_trip_refuted): at the second character of the next line instead of the
    first.  And it breaks long lines at spaces even when they start with a space, where the reader
    does not join them.  The strings described here are exactly those that are not hit by either. *)
From Verif Require Import Base.
Open Scope N_scope.

Definition breaking (x : char) : bool := (x =? 10) || (x =? 13) || (x =? 133) || (x =? 8232) || (x =? 8233).
(** No line break in [w]. *)
Definition one_line (w : str) : Prop := Forall (fun x => breaking x = false) w.
(** A line starts after [a]. *)
Definition line_start (a : str) : Prop := a = [] \/ exists b x, a = b ++ [x] /\ breaking x = true.

(** [l] is the rest of a value from the start of a line.  The line [w] does not start with a space
    and ends with a line feed; the next line that is not empty starts with [x] and goes on with [r]:
    its first character is a space exactly if the second one is missing, a space or a line break. *)
Definition break_folds (l : str) : Prop :=
  forall w bs x r, l = w ++ 10 :: bs ++ x :: r -> one_line w -> w <> [] -> hd_error w <> Some 32 ->
  Forall (fun b => breaking b = true) bs -> breaking x = false ->
  (x = 32 <-> match r with [] => True | y :: _ => y = 32 \/ breaking y = true end).
(** The line starts with a space and has another one before a character that is not one: [fits]
    holds of the number of characters before that. *)
Definition indented_fits (fits : nat -> Prop) (l : str) : Prop :=
  forall u y r, l = 32 :: u ++ 32 :: y :: r -> one_line u -> y <> 32 -> breaking y = false -> fits (S (length u)).
(** Every line is like that. *)
Definition folds (fits : nat -> Prop) (v : str) : Prop :=
  forall a l, v = a ++ l -> line_start a -> break_folds l /\ indented_fits fits l.
(** Whatever the width: indented lines have no space inside. *)
Definition always_folds_well (v : str) : Prop := folds (fun _ => False) v.
