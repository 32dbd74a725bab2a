(** Spec_Tokens.v -- what well-formed tokens are, stated without reference to the scanner. *)
From Verif Require Import Base.

(** Characters of anchors, aliases and tag handles: [0-9A-Za-z_-]. *)
Definition name_char (c : char) : Prop :=
  48 <= c <= 57 \/ 65 <= c <= 90 \/ 97 <= c <= 122 \/ c = 95 \/ c = 45.

(** Tag handles: "!" or "!word!" (in particular "!!"). *)
Definition handle_wf (h : str) : Prop :=
  h = [33] \/ exists w, h = [33] ++ w ++ [33] /\ Forall name_char w.

Definition token_wf (d : token_data) : Prop :=
  match d with
  | TAnchor n | TAlias n => n <> [] /\ Forall name_char n
  | TVersionDirective major minor =>
      (0 <= major <= 999999999)%Z /\ (0 <= minor <= 999999999)%Z
  | TTagDirective h p => handle_wf h /\ p <> []
  | TTag h s => (h = [] \/ handle_wf h) /\ s <> []
  | TScalar _ st => st <> SAny
  | _ => True
  end.

(** The nesting of flow collections after a list of tokens.  The scanner does not check that the
    brackets match: a closing bracket closes whatever is open, and nothing if nothing is. *)
Fixpoint flow_depth (n : N) (l : list token) : N :=
  match l with
  | [] => n
  | t :: r => match t_data t with
              | TFlowSequenceStart | TFlowMappingStart => flow_depth (n + 1) r
              | TFlowSequenceEnd | TFlowMappingEnd => flow_depth (n - 1) r
              | _ => flow_depth n r
              end
  end.
