(** Spec_RoundTrip.v -- vocabulary for the round trips: what a scanner has still to read. *)
From Verif Require Import Base Utf State Reader Scanner Spec_Tokens Spec_Scanner Spec_Reader Spec_Styles.
Open Scope N_scope.

(** The scanner [s] reads UTF-8 and has exactly the text [tx] to come: the beginning of it is decoded
    already, the stream delivers the rest, in whatever chunks and with whatever interruptions. *)
Definition to_come (s : sst) (tx : str) : Prop :=
  exists i x, src s = Some i /\ error_free i /\ enc s = Utf8 /\ Forall yaml_char tx /\
    tx = buffer s ++ x /\ utf8_text x (all_bytes i) /\ (eof s = true -> x = []) /\
    offset s + N.of_nat (length (all_bytes i)) < 9223372036854775807.

(** What may follow a plain scalar: spaces and line breaks [q], then [after], which shows that the
    scalar has ended: nothing; a colon and white space; a flow indicator, in a flow collection; a comment;
    a line indented less than [ind], outside of flow collections; a line with a document marker. *)
Definition plain_follow (flow : bool) (ind : Z) (q after : str) : Prop :=
  Forall (fun x => space x \/ line_break x) q /\ (forall x b, after = x :: b -> ~ white x) /\
  (after = [] \/
   (exists b, after = 58 :: b /\ white_behind b) \/
   (flow = true /\ exists x b, after = x :: b /\ In x [44; 91; 93; 123; 125]) \/
   (q <> [] /\ exists b, after = 35 :: b) \/
   (exists a y b, q = a ++ y :: b /\ line_break y /\ Forall space b /\
      (flow = false /\ (Z.of_nat (length b) < ind)%Z \/
       b = [] /\ exists x r, (x = 45 \/ x = 46) /\ after = [x; x; x] ++ r /\ white_behind r))).

(** What may follow a literal block scalar of value [v]: line breaks [q], none exactly when [v] ends with one;
    [sp], less than [ind] spaces; then [after], which is nothing or does not begin with white space. *)
Definition ends_line (v : str) : Prop := exists a x, v = a ++ [x] /\ line_break x.
Definition literal_follow (ind : Z) (v q sp after : str) : Prop :=
  Forall line_break q /\ (q = [] <-> ends_line v) /\ Forall space sp /\ (Z.of_nat (length sp) < ind)%Z /\
  (forall x b, after = x :: b -> ~ white x).
