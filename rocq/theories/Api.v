(** Api.v -- sessions: what a user of the crate observes when calling its public methods
    repeatedly.  Nothing here models code of the crate beyond calling it. *)
From Verif Require Import Base Utf Chars State Reader Scanner Parser EState Emitter Document.

(** A byte slice as an input ([set_input_string]): everything is available at once. *)
Definition slice_source (l : list byte) : source := Mk_source l [].

(** A scanner / parser freshly created and given an input. *)
Definition scanner_on (dbg : bool) (i : source) : sst := set_src (Some i) (scanner_new dbg).
(** The same after [set_encoding e] as well ([EncAny]: not called). *)
Definition scanner_start (dbg : bool) (e : encoding) (i : source) : sst := set_enc e (scanner_on dbg i).
Definition parser_on (dbg : bool) (i : source) : pst := set_sc (scanner_on dbg i) (parser_new dbg).

(** Calling a method of type [M S A] [n] times in a row, whatever the outcomes are: the list of
    the outcomes and the final state. *)
Fixpoint calls {S A} (m : M S A) (n : nat) (s : S) : list (res A) * S :=
  match n with
  | O => ([], s)
  | S n' => match m s with
            | (r, s1) => match calls m n' s1 with (l, s2) => (r :: l, s2) end
            end
  end.

(** Calling it until the first outcome that is not [Ok] (as [collect::<Result<Vec<_>, _>>()]
    or a loop with [?] does): the values, and how it stopped. *)
Fixpoint calls_ok {S A} (m : M S A) (n : nat) (s : S) : list A * option (res A) * S :=
  match n with
  | O => ([], None, s)
  | S n' => match m s with
            | (Ok a, s1) => match calls_ok m n' s1 with (l, o, s2) => (a :: l, o, s2) end
            | (r, s1) => ([], Some r, s1)
            end
  end.

(** Emitting a list of events, stopping at the first failure. *)
Fixpoint emit_all (l : list event) : M est unit :=
  match l with [] => ret tt | e :: r => emit e ;; emit_all r end.

(** What the handler of an emitter has received. *)
Definition output (s : est) : list byte := match em_writer s with Some w => w_out w | None => [] end.

(** An emitter with a handler that follows the plan [p], before any setting is changed. *)
Definition emitter_on (plan : list write_ev) : est := set_em_writer (Some (Mk_writer [] plan)) emitter_new.
