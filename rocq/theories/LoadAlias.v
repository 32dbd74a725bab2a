(** LoadAlias.v -- the parser proper never looks at the aliases kept for the loader. *)
From Verif Require Import Base State Scanner Parser.

Definition al {A} (m : M pst A) : Prop := forall a p, m (set_aliases a p) = let '(r, p') := m p in (r, set_aliases a p').
Lemma al_ret {A} (x : A) : al (ret x). Proof. intros a p. reflexivity. Qed.
Lemma al_fail {A} x : al (@fail pst A x). Proof. intros a p. reflexivity. Qed.
Lemma al_panics {A} x : al (@panics pst A x). Proof. intros a p. reflexivity. Qed.
Lemma al_modify f : (forall a p, f (set_aliases a p) = set_aliases a (f p)) -> al (modify f).
Proof. intros H a p. unfold modify. rewrite H. reflexivity. Qed.
Lemma al_on_sc {A} (m : M sst A) : al (on_sc m).
Proof. intros a p. unfold on_sc. cbn [sc set_aliases]. destruct (m (sc p)). reflexivity. Qed.
Lemma al_bind {A B} (m : M pst A) (k : A -> M pst B) : al m -> (forall x, al (k x)) -> al (bind m k).
Proof. intros H1 H2 a p. unfold bind. rewrite H1. destruct (m p) as [[x|x|x|] p']; auto. apply H2. Qed.
Lemma al_get {B} (k : pst -> M pst B) : (forall a p, k (set_aliases a p) = k p) -> (forall p, al (k p)) -> al (bind get k).
Proof. intros H1 H2 a p. unfold bind, get. rewrite H1. apply H2. Qed.
Lemma al_loop {A B} (f : A -> M pst (A + B)) : (forall x, al (f x)) -> forall n x, al (loopM n f x).
Proof.
  intros H. induction n as [|n IH]; intros x a p; cbn [loopM]; [reflexivity|]. unfold bind. rewrite (H x a p).
  destruct (f x p) as [[[y|y]|y|y|] p']; auto. apply IH.
Qed.
Lemma al_budget {B} (m : nat -> M pst B) : (forall n, al (m n)) -> al (fun p => m (tok_budget p) p).
Proof. intros H a p. change (tok_budget (set_aliases a p)) with (tok_budget p). apply H. Qed.
Lemma al_if {A} (b : bool) (m n : M pst A) : al m -> al n -> al (if b then m else n).
Proof. destruct b; auto. Qed.

Ltac al1 :=
  lazymatch goal with
  | |- al (ret _) => apply al_ret
  | |- al (fail _) => apply al_fail
  | |- al (panics _) => apply al_panics
  | |- al (on_sc _) => apply al_on_sc
  | |- al (modify _) => apply al_modify; intros; reflexivity
  | |- al (bind get _) => apply al_get; [intros; reflexivity|intros]
  | |- al (bind _ _) => apply al_bind; [|intros]
  | |- al (loopM _ _ _) => apply al_loop; intros
  | |- al (match t_data ?t with _ => _ end) =>
            let x := fresh "x" in generalize (t_data t); intros x;
            pattern x;
            match goal with |- ?F x =>
              let D := eval cbv beta iota in (F (TVersionDirective 0 0)) in
              let H := fresh "H" in assert (H : D); [|cbv beta; destruct x; try exact H]
            end
  | |- al (match ?x with _ => _ end) => destruct x
  end.
Lemma al_append v b m : al (append_tag_directive v b m). Proof. unfold append_tag_directive. repeat al1. Qed.
Lemma al_pop : al pop_state. Proof. intros a p. unfold pop_state. cbn [states set_aliases]. destruct (states p); reflexivity. Qed.
Lemma al_pop_mark : al pop_mark. Proof. intros a p. unfold pop_mark. cbn [marks set_aliases]. destruct (marks p); reflexivity. Qed.
Lemma al_drop : al drop_mark. Proof. apply al_modify. reflexivity. Qed.
Lemma al_ppeek : al ppeek. Proof. apply al_on_sc. Qed.
Lemma al_pskip : al pskip. Proof. apply al_on_sc. Qed.
Lemma al_push x : al (push_state x). Proof. apply al_modify. reflexivity. Qed.
Lemma al_goto x : al (goto x). Proof. apply al_modify. reflexivity. Qed.
Lemma al_pmark x : al (push_mark x). Proof. apply al_modify. reflexivity. Qed.
Create HintDb alias.
Global Hint Resolve al_append al_pop al_pop_mark al_drop al_ppeek al_pskip al_push al_goto al_pmark : alias.
Ltac als := repeat first [ solve [auto with alias nocore] | al1 ].

Lemma al_dirs : al directives_loop.
Proof. unfold directives_loop. apply (al_budget (fun n => loopM n _ _)). intros n. apply al_loop. intros [vd tds]. als. Qed.
Lemma al_ends : al skip_document_ends.
Proof. unfold skip_document_ends. apply (al_budget (fun n => loopM n _ _)). intros n. als. Qed.
Global Hint Resolve al_dirs al_ends : alias.
Lemma al_pdirs : al process_directives. Proof. unfold process_directives. als. Qed.
Global Hint Resolve al_pdirs : alias.
Lemma al_props t : al (parse_properties t). Proof. unfold parse_properties. als. Qed.
Lemma al_resolve x a b : al (resolve_tag x a b). Proof. unfold resolve_tag. als. Qed.
Global Hint Resolve al_props al_resolve : alias.
Lemma al_content b i t : al (parse_node_content b i t).
Proof.
  unfold parse_node_content. apply al_bind; [auto with alias|]. intros [[[[an ht] sm] em] tm]. apply al_bind; [auto with alias|]. intros tag.
  apply al_bind; [auto with alias|]. intros t'. cbv zeta.
  match goal with |- al (match t_data _ with TBlockEntry => if _ then _ else ?f | _ => _ end) => assert (H : al f) by als; set (fb := f) in * end.
  destruct (t_data t'); try exact H; als; exact H.
Qed.
Global Hint Resolve al_content : alias.
Lemma al_node b i : al (parse_node b i). Proof. unfold parse_node. als. Qed.
Global Hint Resolve al_node : alias.
Lemma al_enter b : al (enter_collection b). Proof. unfold enter_collection. als. Qed.
Lemma al_leave d t : al (leave_collection d t). Proof. unfold leave_collection. als. Qed.
Lemma al_cerr a b t : al (collection_error a b t). Proof. unfold collection_error. als. Qed.
Lemma al_sep a b c t : al (flow_separator a b c t). Proof. unfold flow_separator. als. Qed.
Global Hint Resolve al_enter al_leave al_cerr al_sep : alias.

Lemma al_machine : al state_machine.
Proof.
  unfold state_machine. apply al_get; [reflexivity|]. intros p. destruct (state p); try solve [auto with alias nocore];
  unfold parse_stream_start, parse_document_start, parse_document_content, parse_document_end, parse_block_sequence_entry, parse_indentless_sequence_entry,
    parse_block_mapping_key, parse_block_mapping_value, parse_flow_sequence_entry, parse_flow_sequence_entry_mapping_key, parse_flow_sequence_entry_mapping_value,
    parse_flow_sequence_entry_mapping_end, parse_flow_mapping_key, parse_flow_mapping_value; als.
Qed.
Lemma al_parse : al parse.
Proof. unfold parse. apply al_get; [reflexivity|]. intros p. apply al_if; [apply al_ret|apply al_machine]. Qed.
