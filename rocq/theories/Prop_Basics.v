(** Prop_Basics.v -- C17 (reset), C21 and C22 (building documents). *)
From Coq Require Import ZifyBool ZifyNat ZifyN.
From Verif Require Import Base Utf State Reader Scanner Parser EState Emitter Document Api DocFacts.

(** ** C17: after any history, [reset] gives the state of a new object; so every later sequence
    of calls behaves as on a new object. *)
Theorem C17_scanner_reset : forall (s : sst) (i : source),
  (scanner_reset ;; set_input i) s = (Ok tt, scanner_on (debug_build s) i).
Proof. reflexivity. Qed.
Theorem C17_parser_reset : forall (p : pst) (i : source),
  (parser_reset ;; parser_set_input i) p = (Ok tt, parser_on (debug_build (sc p)) i).
Proof. reflexivity. Qed.
Theorem C17_emitter_reset : forall (s : est) (plan : list write_ev),
  (emitter_reset ;; em_set_output (Mk_writer [] plan)) s = (Ok tt, emitter_on plan).
Proof. reflexivity. Qed.
(** In particular any sequence of calls observes the same results. *)
Theorem C17_parser_reset_observations : forall (p : pst) (i : source) (n : nat),
  let p' := snd ((parser_reset ;; parser_set_input i) p) in
  calls parse n p' = calls parse n (parser_on (debug_build (sc p)) i) /\
  calls parser_next n p' = calls parser_next n (parser_on (debug_build (sc p)) i) /\
  calls load n p' = calls load n (parser_on (debug_build (sc p)) i).
Proof. intros p i n. cbn zeta. rewrite C17_parser_reset. auto. Qed.
Print Assumptions C17_scanner_reset.
Print Assumptions C17_parser_reset.
Print Assumptions C17_emitter_reset.
Print Assumptions C17_parser_reset_observations.
(** Non-vacuity: a parser in the middle of an erroneous document is not a fresh one. *)
Example C17_nontrivial :
  let p := snd (calls parse 5 (parser_on false (slice_source (lit "[a}")))) in
  p <> parser_on false (slice_source (lit "[a}")) /\ states p <> [] /\ tokens_parsed (sc p) = 3.
Proof. vm_compute. split; [intros H; discriminate|]. split; [discriminate|reflexivity]. Qed.

(** ** C21: the building API.  [node_no i d] is the i-th node (1-based) and [header d] everything
    else in the document (DocFacts.v). *)
Definition added (d : document) (n : node) (r : res Z * document) : Prop :=
  let d' := snd r in
  fst r = Ok (doc_len d + 1)%Z /\ doc_len d' = (doc_len d + 1)%Z /\
  (forall dbg, get_node dbg (doc_len d + 1) d' = Ok (Some n)) /\
  (forall dbg i, (1 <= i <= doc_len d)%Z -> get_node dbg i d' = get_node dbg i d) /\
  (doc_len d = 0%Z -> get_root_node d' = Some n) /\ (doc_len d <> 0%Z -> get_root_node d' = get_root_node d) /\
  header d' = header d.
Lemma add_node_added n d : added d n (add_node n d).
Proof.
  destruct (add_node_spec n d) as (d' & E & Hl & Hn & Ho & Hh). unfold added. rewrite E. cbn.
  assert (Hd : d_nodes d' = d_nodes d ++ [n]) by (inversion E; reflexivity).
  split; [reflexivity|]. split; [exact Hl|]. split.
  { intros dbg. rewrite get_node_no, Hn by (unfold doc_len; lia). reflexivity. }
  split. { intros dbg i Hi. rewrite !get_node_no, Ho by lia. reflexivity. }
  unfold get_root_node, doc_len. rewrite Hd. split; [|split; [|exact Hh]]; destruct (d_nodes d); cbn; auto; lia.
Qed.
Theorem C21_add_scalar : forall d tag value style,
  added d (Mk_node (NScalar value style) (Some (match tag with Some t => t | None => lit "tag:yaml.org,2002:str" end)) mark0 mark0)
        (add_scalar tag value style d).
Proof. intros d [t|] v st; apply add_node_added. Qed.
Theorem C21_add_sequence : forall d tag style,
  added d (Mk_node (NSequence [] style) (Some (match tag with Some t => t | None => lit "tag:yaml.org,2002:seq" end)) mark0 mark0)
        (add_sequence tag style d).
Proof. intros d [t|] st; apply add_node_added. Qed.
Theorem C21_add_mapping : forall d tag style,
  added d (Mk_node (NMapping [] style) (Some (match tag with Some t => t | None => lit "tag:yaml.org,2002:map" end)) mark0 mark0)
        (add_mapping tag style d).
Proof. intros d [t|] st; apply add_node_added. Qed.

(** Exactly the node [k] changed, from [n] to [n']. *)
Definition changed (d d' : document) (k : Z) (n n' : node) : Prop :=
  doc_len d' = doc_len d /\
  (forall dbg, get_node dbg k d = Ok (Some n)) /\ (forall dbg, get_node dbg k d' = Ok (Some n')) /\
  (forall dbg i, i <> k -> get_node dbg i d' = get_node dbg i d) /\ header d' = header d.
Lemma upd_node_changed d k n f : node_no k d = Some n -> changed d (upd_node k f d) k n (f n).
Proof.
  intros Hn. assert (Hk : (1 <= k <= doc_len d)%Z) by (apply node_no_some; congruence).
  destruct (upd_node_spec k f d n Hn) as (Hl & H1 & H2 & H3). unfold changed.
  split; [exact Hl|]. split; [intros dbg; rewrite get_node_no, Hn by lia; reflexivity|].
  split; [intros dbg; rewrite get_node_no, H1 by lia; reflexivity|]. split; [|exact H3].
  intros dbg i Hi. destruct (Z.eqb_spec i 0) as [->|H0]; [reflexivity|].
  rewrite !get_node_no, H2 by assumption. reflexivity.
Qed.
Theorem C21_append_sequence_item : forall d s i,
  (exists items style tg a b d',
      append_sequence_item s i d = (Ok tt, d') /\ (1 <= i <= doc_len d)%Z /\
      changed d d' s (Mk_node (NSequence items style) tg a b) (Mk_node (NSequence (items ++ [i]) style) tg a b))
  \/ append_sequence_item s i d = (Panic PAssert, d) /\
     ~ ((1 <= i <= doc_len d)%Z /\
        exists items style tg a b, get_node false s d = Ok (Some (Mk_node (NSequence items style) tg a b))).
Proof.
  intros d s i. pose proof (append_item_spec s i d) as H.
  assert (Hg : s = 0%Z /\ get_node false s d = Ok None \/ get_node false s d = Ok (node_no s d)).
  { destruct (Z.eq_dec s 0) as [->|Hs]; [left; auto|right; apply get_node_no, Hs]. }
  destruct (node_no s d) as [[dat tg a b]|] eqn:En.
  2:{ right. split; [exact H|]. intros (_ & items & st & tg & a & b & Hn). destruct Hg as [[-> Hg]|Hg]; congruence. }
  destruct dat as [|v st|items st|pairs st];
    try (right; split; [exact H|]; intros (_ & ? & ? & ? & ? & ? & Hn); destruct Hg as [[-> Hg]|Hg]; congruence).
  destruct (in_doc i d) eqn:Ei.
  - left. exists items, st, tg, a, b. eexists. split; [exact H|]. split; [apply in_doc_iff, Ei|].
    exact (upd_node_changed d s (Mk_node (NSequence items st) tg a b) (with_data (NSequence (items ++ [i]) st)) En).
  - right. split; [exact H|]. intros [Hi _]. apply in_doc_iff in Hi. congruence.
Qed.
Theorem C21_append_mapping_pair : forall d m k v,
  (exists pairs style tg a b d',
      append_mapping_pair m k v d = (Ok tt, d') /\ (1 <= k <= doc_len d)%Z /\ (1 <= v <= doc_len d)%Z /\
      changed d d' m (Mk_node (NMapping pairs style) tg a b) (Mk_node (NMapping (pairs ++ [(k, v)]) style) tg a b))
  \/ append_mapping_pair m k v d = (Panic PAssert, d) /\
     ~ ((1 <= k <= doc_len d)%Z /\ (1 <= v <= doc_len d)%Z /\
        exists pairs style tg a b, get_node false m d = Ok (Some (Mk_node (NMapping pairs style) tg a b))).
Proof.
  intros d m k v. pose proof (append_pair_spec m k v d) as H.
  assert (Hg : m = 0%Z /\ get_node false m d = Ok None \/ get_node false m d = Ok (node_no m d)).
  { destruct (Z.eq_dec m 0) as [->|Hs]; [left; auto|right; apply get_node_no, Hs]. }
  destruct (node_no m d) as [[dat tg a b]|] eqn:En.
  2:{ right. split; [exact H|]. intros (_ & _ & ? & st & tg & a & b & Hn). destruct Hg as [[-> Hg]|Hg]; congruence. }
  destruct dat as [|sv st|items st|pairs st];
    try (right; split; [exact H|]; intros (_ & _ & ? & ? & ? & ? & ? & Hn); destruct Hg as [[-> Hg]|Hg]; congruence).
  destruct (in_doc k d) eqn:Ek; [destruct (in_doc v d) eqn:Ev|]; cbn [andb] in H.
  - left. exists pairs, st, tg, a, b. eexists. split; [exact H|]. split; [apply in_doc_iff, Ek|]. split; [apply in_doc_iff, Ev|].
    exact (upd_node_changed d m (Mk_node (NMapping pairs st) tg a b) (with_data (NMapping (pairs ++ [(k, v)]) st)) En).
  - right. split; [exact H|]. intros (_ & Hi & _). apply in_doc_iff in Hi. congruence.
  - right. split; [exact H|]. intros (Hi & _). apply in_doc_iff in Hi. congruence.
Qed.
Print Assumptions C21_add_scalar.
Print Assumptions C21_add_sequence.
Print Assumptions C21_add_mapping.
Print Assumptions C21_append_sequence_item.
Print Assumptions C21_append_mapping_pair.
(** Non-vacuity: both outcomes of append occur. *)
Example C21_both_outcomes :
  let d := snd (add_scalar None (lit "x") SPlain (snd (add_sequence None SeqBlock (document_new None [] true true)))) in
  fst (append_sequence_item 1 2 d) = Ok tt /\ append_sequence_item 2 1 d = (Panic PAssert, d).
Proof. vm_compute. auto. Qed.

(** ** C22: [get_node] is total in release builds; in debug builds index 0 panics. *)
Theorem C22_get_node_partial : forall dbg index d,
  (index <> 0%Z \/ dbg = false) ->
  (1 <= index <= doc_len d)%Z /\ (exists n, get_node dbg index d = Ok (Some n) /\
                                   nth_error (d_nodes d) (Z.to_nat (index - 1)) = Some n)
  \/ ~ (1 <= index <= doc_len d)%Z /\ get_node dbg index d = Ok None.
Proof.
  intros dbg i d Hi. destruct (Z.eq_dec i 0) as [->|H0].
  - right. split; [lia|]. destruct Hi as [Hi| ->]; [lia|reflexivity].
  - rewrite get_node_no by assumption. destruct (node_no i d) as [n|] eqn:E.
    + left. assert (Hr : (1 <= i <= doc_len d)%Z) by (apply node_no_some; congruence).
      split; [exact Hr|]. exists n. split; [reflexivity|]. unfold node_no in E. destruct (_ && _); [exact E|discriminate].
    + right. split; [|reflexivity]. intros Hr. apply node_no_some in Hr. congruence.
Qed.
Theorem C22_get_node_refuted : forall d, get_node true 0 d = Panic PSubOverflow.
Proof. reflexivity. Qed.
Print Assumptions C22_get_node_partial.
Print Assumptions C22_get_node_refuted.
Example C22_nontrivial :
  let d := snd (add_scalar None (lit "x") SPlain (document_new None [] true true)) in
  get_node true 1 d <> Ok None /\ get_node true 2 d = Ok None /\ get_node true (-1) d = Ok None.
Proof. vm_compute. split; [discriminate|auto]. Qed.
