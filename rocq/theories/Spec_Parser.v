(** Spec_Parser.v -- vocabulary for the properties of parser sessions. *)
From Verif Require Import Base State Scanner Parser EState Emitter Document Spec_Tokens Spec_Scanner Api.

(** A parser freshly created, given the input [i] and possibly an encoding. *)
Definition parser_start (dbg : bool) (e : encoding) (i : source) : pst := set_sc (scanner_start dbg e i) (parser_new dbg).

(** Sessions: any sequence of calls of the public methods. *)
Inductive pcall := CallParse | CallPNext | CallLoad.
Inductive pout := OEvent (e : event) | ODocument (d : document) | ONone.
Definition pinvoke (c : pcall) : M pst pout :=
  match c with
  | CallParse => e <- parse ;; ret (OEvent e)
  | CallPNext => o <- parser_next ;; ret (match o with Some e => OEvent e | None => ONone end)
  | CallLoad => d <- load ;; ret (ODocument d)
  end.
Fixpoint psession (cs : list pcall) (p : pst) : list (res pout) * pst :=
  match cs with
  | [] => ([], p)
  | c :: cs' => match pinvoke c p with
                | (r, p1) => match psession cs' p1 with (l, p2) => (r :: l, p2) end
                end
  end.

(** The events among the outcomes of calls of the iterator. *)
Definition event_of (r : res (option event)) : list event := match r with Ok (Some e) => [e] | _ => [] end.
Definition events_of (os : list (res (option event))) : list event := flat_map event_of os.
Definition is_stream_end_event (e : event) : bool := match e_data e with EvStreamEnd => true | _ => false end.

(** [marks_follow lo es]: the events start at [lo] or later, each where the one before it started or
    later, and none ends before it starts. *)
Fixpoint marks_follow (lo : mark) (es : list event) : Prop :=
  match es with
  | [] => True
  | e :: r => before lo (e_start e) /\ before (e_start e) (e_end e) /\ marks_follow (e_start e) r
  end.

(** [s] has returned exactly the tokens [ts], one per call, since it was created. *)
Definition scanner_gives (dbg : bool) (e : encoding) (i : source) (ts : list token) : Prop :=
  exists s, calls scanner_next (length ts) (scanner_start dbg e i) = (map (fun t => Ok (Some t)) ts, s).
