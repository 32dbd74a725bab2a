(** DocFacts.v -- lemmas about the document building API. *)
From Coq Require Import ZifyBool ZifyNat ZifyN.
From Verif Require Import Base State Parser EState Emitter Document.

Lemma upd_length {A} n (f : A -> A) l : length (upd n f l) = length l.
Proof. revert l; induction n as [|n IH]; intros [|x l]; cbn; auto. Qed.
Lemma upd_same {A} n (f : A -> A) l x : nth_error l n = Some x -> nth_error (upd n f l) n = Some (f x).
Proof. revert l; induction n as [|n IH]; intros [|y l] H; cbn in *; try discriminate; [congruence|auto]. Qed.
Lemma upd_other {A} n m (f : A -> A) l : n <> m -> nth_error (upd n f l) m = nth_error l m.
Proof.
  revert m l; induction n as [|n IH]; intros m [|y l] H; cbn; auto; destruct m; cbn; auto; try congruence.
Qed.

(** The node with 1-based number [i], if there is one. *)
Definition node_no (i : Z) (d : document) : option node :=
  if ((1 <=? i) && (i <=? Z.of_nat (length (d_nodes d))))%Z then nth_error (d_nodes d) (Z.to_nat (i - 1)) else None.
(** The part of a document that is not its nodes. *)
Definition header (d : document) :=
  (d_version_directive d, d_tag_directives d, d_start_implicit d, d_end_implicit d, d_start d, d_end d).

Lemma get_node_no dbg i d : (i <> 0)%Z -> get_node dbg i d = Ok (node_no i d).
Proof.
  intros Hi. unfold get_node, node_no, vec_index. destruct (Z.eqb_spec i 0); [lia|].
  destruct (1 <=? i)%Z eqn:E1; cbn; [|reflexivity].
  destruct (i <=? Z.of_nat (length (d_nodes d)))%Z eqn:E2; [reflexivity|].
  f_equal. apply nth_error_None. lia.
Qed.
Lemma node_no_some i d : node_no i d <> None <-> (1 <= i <= doc_len d)%Z.
Proof.
  unfold node_no, doc_len. destruct ((1 <=? i)%Z && _) eqn:E.
  - rewrite nth_error_Some. lia.
  - split; [congruence|lia].
Qed.

Lemma add_node_spec n d : exists d',
  add_node n d = (Ok (doc_len d + 1)%Z, d') /\ doc_len d' = (doc_len d + 1)%Z /\
  node_no (doc_len d + 1) d' = Some n /\
  (forall i, (1 <= i <= doc_len d)%Z -> node_no i d' = node_no i d) /\ header d' = header d.
Proof.
  eexists. split; [reflexivity|]. unfold doc_len, node_no, header. cbn.
  rewrite app_length. cbn [length]. split; [lia|]. split.
  - destruct (_ && _) eqn:E; [|lia].
    rewrite nth_error_app2 by lia.
    replace (Z.to_nat _ - _)%nat with 0%nat by lia. reflexivity.
  - split; [|reflexivity]. intros i Hi.
    destruct ((1 <=? i)%Z && (i <=? Z.of_nat (length (d_nodes d) + 1))%Z) eqn:E1; [|lia].
    destruct ((1 <=? i)%Z && (i <=? Z.of_nat (length (d_nodes d)))%Z) eqn:E2; [|lia].
    rewrite nth_error_app1 by lia. reflexivity.
Qed.

Lemma upd_node_spec k f d n : node_no k d = Some n ->
  doc_len (upd_node k f d) = doc_len d /\ node_no k (upd_node k f d) = Some (f n) /\
  (forall i, i <> k -> node_no i (upd_node k f d) = node_no i d) /\ header (upd_node k f d) = header d.
Proof.
  intros Hn. assert (Hk : (1 <= k <= doc_len d)%Z) by (apply node_no_some; congruence).
  unfold doc_len in *. unfold upd_node, vec_index. destruct (1 <=? k)%Z eqn:E; [|lia].
  unfold node_no in *. cbn. rewrite upd_length. split; [reflexivity|]. split; [|split; [|reflexivity]].
  - destruct (_ && _); [|discriminate]. apply upd_same, Hn.
  - intros i Hi. destruct ((1 <=? i)%Z && _) eqn:E2; [|reflexivity]. apply upd_other. lia.
Qed.

Lemma node_at_no i d : (1 <= i <= doc_len d)%Z -> node_at i d = node_no i d.
Proof.
  intros H. unfold node_at, node_no, vec_index, doc_len in *. destruct (1 <=? i)%Z eqn:E; [|lia].
  cbn [andb]. destruct (i <=? Z.of_nat (length (d_nodes d)))%Z eqn:E2; [reflexivity|lia].
Qed.
Lemma in_doc_iff i d : in_doc i d = true <-> (1 <= i <= doc_len d)%Z.
Proof. unfold in_doc. lia. Qed.

Lemma append_item_spec s i d : 
  match node_no s d with
  | Some (Mk_node (NSequence items st) tg a b) =>
      if in_doc i d then append_sequence_item s i d = (Ok tt, upd_node s (with_data (NSequence (items ++ [i]) st)) d)
      else append_sequence_item s i d = (Panic PAssert, d)
  | _ => append_sequence_item s i d = (Panic PAssert, d)
  end.
Proof.
  unfold append_sequence_item. destruct (in_doc s d) eqn:Es; cbn [negb].
  - apply in_doc_iff in Es. rewrite node_at_no by assumption.
    destruct (node_no s d) as [[[| | |] tg a b]|]; try reflexivity. destruct (in_doc i d); reflexivity.
  - destruct (node_no s d) eqn:E; [|reflexivity].
    assert (in_doc s d = true) by (apply in_doc_iff, node_no_some; congruence). congruence.
Qed.
Lemma append_pair_spec m k v d : 
  match node_no m d with
  | Some (Mk_node (NMapping pairs st) tg a b) =>
      if in_doc k d && in_doc v d
      then append_mapping_pair m k v d = (Ok tt, upd_node m (with_data (NMapping (pairs ++ [(k, v)]) st)) d)
      else append_mapping_pair m k v d = (Panic PAssert, d)
  | _ => append_mapping_pair m k v d = (Panic PAssert, d)
  end.
Proof.
  unfold append_mapping_pair. destruct (in_doc m d) eqn:Es; cbn [negb].
  - apply in_doc_iff in Es. rewrite node_at_no by assumption.
    destruct (node_no m d) as [[[| | |] tg a b]|]; try reflexivity.
    destruct (in_doc k d), (in_doc v d); reflexivity.
  - destruct (node_no m d) eqn:E; [|reflexivity].
    assert (in_doc m d = true) by (apply in_doc_iff, node_no_some; congruence). congruence.
Qed.
