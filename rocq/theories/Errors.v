(** Errors.v -- model of /repo/src/error.rs.

    [Error] is [error] of Base.v (error.rs:29-42, 53-54).  [std::io::Error] is [ioerr]; its own
    Display text is a parameter of [display]. *)
From Coq Require Import Bool.
From Verif Require Import Base Emitter.
Open Scope N_scope.

(** 44-52 [ErrorKind] *)
Inductive error_kind := KReader | KScanner | KParser | KComposer | KEmitter | KIo.
(** 117-126 [Error::kind] *)
Definition kind (e : error) : error_kind :=
  match e with
  | EReader _ _ _ => KReader
  | EScanner _ _ _ _ => KScanner
  | EParser _ _ _ _ => KParser
  | EComposer _ _ _ _ => KComposer
  | EEmitter _ => KEmitter
  | EIo _ => KIo
  end.
(** 128-135 [Error::problem_mark] *)
Definition problem_mark (e : error) : option mark :=
  match e with
  | EReader _ _ _ | EEmitter _ | EIo _ => None
  | EScanner _ _ _ m | EParser _ _ _ m | EComposer _ _ _ m => Some m
  end.
(** 137-148 [Error::context_mark] *)
Definition context_mark (e : error) : option mark :=
  match e with
  | EReader _ _ _ | EEmitter _ | EIo _ => None
  | EScanner c m _ _ | EParser c m _ _ | EComposer c m _ _ => if String.eqb c "" then None else Some m
  end.
(** 150-156 [Error::problem] *)
Definition problem (e : error) : string :=
  match e with
  | EReader p _ _ | EEmitter p => p
  | EScanner _ _ p _ | EParser _ _ p _ | EComposer _ _ p _ => p
  | EIo _ => "I/O error"
  end.
(** 158-169 [Error::context] *)
Definition context (e : error) : option string :=
  match e with
  | EReader _ _ _ | EEmitter _ | EIo _ => None
  | EScanner c _ _ _ | EParser c _ _ _ | EComposer c _ _ _ => if String.eqb c "" then None else Some c
  end.
(** 172-180 [std::error::Error::source] *)
Definition error_source (e : error) : option ioerr := match e with EIo x => Some x | _ => None end.
(** 182-196 [TryFrom<Error> for std::io::Error] *)
Definition try_into_io (e : error) : ioerr + error := match kind e, e with KIo, EIo x => inl x | _, _ => inr e end.

(** 5-19 [Display for Mark].  Lines and columns are counted from 0; [u64] does not overflow here. *)
Definition show_mark (m : mark) : str := lit "line " ++ decimal (m_line m + 1) ++ lit " column " ++ decimal (m_col m + 1).
(** 199-210 [Display for ErrorKind] *)
Definition show_kind (k : error_kind) : str :=
  match k with
  | KReader => lit "Reader" | KScanner => lit "Scanner" | KParser => lit "Parser"
  | KComposer => lit "Composer" | KEmitter => lit "Emitter" | KIo => lit "I/O"
  end.
(** 212-227 [Display for Problem] *)
Definition show_problem (c : string) (cm : mark) (p : string) (pm : mark) : str :=
  if String.eqb c "" then show_mark pm ++ lit ": " ++ lit p
  else show_mark pm ++ lit ": " ++ lit p ++ lit " " ++ lit c ++ lit " (" ++ show_mark cm ++ lit ")".
Definition show_int (z : Z) : str := (if (z <? 0)%Z then lit "-" else []) ++ decimal (Z.abs_N z).
(** 229-245 [Display for Error]; [show_io] is the text of [std::io::Error]. *)
Definition display (show_io : ioerr -> str) (e : error) : str :=
  show_kind (kind e) ++ lit " error: " ++
  match e with
  | EReader p off v => lit p ++ lit " (offset " ++ decimal off ++ lit ", value " ++ show_int v ++ lit ")"
  | EScanner c cm p pm | EParser c cm p pm | EComposer c cm p pm => show_problem c cm p pm
  | EEmitter p => lit p
  | EIo x => show_io x
  end.

(** What each layer may report: its own errors and those of the layers below it; the text that says
    what the problem is is not empty. *)
Definition says (K : list error_kind) (e : error) : Prop := In (kind e) K /\ problem e <> ""%string.
Definition reader_error : error -> Prop := says [KReader; KIo].
Definition scanner_error : error -> Prop := says [KReader; KIo; KScanner].
Definition parser_error : error -> Prop := says [KReader; KIo; KScanner; KParser].
Definition loader_error : error -> Prop := says [KReader; KIo; KScanner; KParser; KComposer].
Definition emitter_errors : error -> Prop := says [KEmitter; KIo].
Lemma reader_scanner e : reader_error e -> scanner_error e. Proof. intros [H1 H2]. split; [|exact H2]. cbn in *. tauto. Qed.
Lemma scanner_parser e : scanner_error e -> parser_error e. Proof. intros [H1 H2]. split; [|exact H2]. cbn in *. tauto. Qed.
Lemma parser_loader e : parser_error e -> loader_error e. Proof. intros [H1 H2]. split; [|exact H2]. cbn in *. tauto. Qed.
