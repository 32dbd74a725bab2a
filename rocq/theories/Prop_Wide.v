(** Prop_Wide.v -- C55: what the emitter writes in UTF-16 is read back, if it comes byte by byte.

    The counterparts of C47 and C40 for UTF-16 output (which starts with a byte order mark), read with
    automatic detection of the encoding.  The bytes must be delivered one by one: for larger reads
    the reader is wrong (C38). *)
From Coq Require Import Lia ZifyBool ZifyNat ZifyN Bool.
From Verif Require Import Base Utf Chars State Reader Scanner Parser EState Emitter Document Api Spec_Tokens Spec_Scanner Spec_Reader Spec_Parser Utf8Facts Utf16Facts ReadFacts ReadUtf16
  Spec_Events Spec_Emitter Spec_EmitNames Spec_Canonical Spec_Folded Spec_Layout Prop_Reader EmitIo Prop_Emitter WideLayout WideCanonical Prop_Recode.
From Verif Require Prop_Layout Prop_Canonical.
Open Scope N_scope.

(** The bytes [l], one by one; the first read is not interrupted (finding 3). *)
Definition delivers16 (i : source) (l : list byte) : Prop :=
  one_byte_reads i /\ first_read_ok i /\ all_bytes i = l /\ N.of_nat (length l) < 4611686018427387904.
Definition is_be (e : encoding) : bool := match e with Utf16Be => true | _ => false end.

Lemma enc16_encode be t : enc16 be t = encode_utf16 be t.
Proof.
  unfold encode_utf16. induction t as [|c t IH]; [reflexivity|]. cbn [enc16 flat_map]. change (flat_map (units16 be) t) with (enc16 be t). rewrite IH, flat_map_app. f_equal.
Qed.
Lemma lengths t : (length (encode_utf8 t) <= 2 * length (encode_utf16 false t))%nat /\ (length (encode_utf16 true t) = length (encode_utf16 false t)).
Proof.
  unfold encode_utf16, encode_utf8. induction t as [|c t [IH1 IH2]]; [split; reflexivity|]. cbn [flat_map]. rewrite !flat_map_app, !app_length.
  assert (K : (length (encode_utf8_char c) <= 2 * length (flat_map (u16_bytes false) (encode_utf16_char c)))%nat /\ length (flat_map (u16_bytes true) (encode_utf16_char c)) = length (flat_map (u16_bytes false) (encode_utf16_char c))).
  { unfold encode_utf16_char. destruct (c <? 65536) eqn:Ec; (split; [|reflexivity]); cbn [flat_map u16_bytes app length]; unfold encode_utf8_char; repeat match goal with |- context [if ?b then _ else _] => destruct b eqn:? end; cbn [length]; lia. }
  destruct K as [K1 K2]. unfold str, char, byte in *. lia.
Qed.

(** From the text to the events. *)
Lemma read_wide t enc dbg i (Q : list event -> Prop) :
  enc = Utf16Le \/ enc = Utf16Be -> t <> [] -> Forall yaml_char t -> Forall sc_char t -> delivers16 i (encoded enc t) ->
  (forall dbg e i, input_text e i t -> exists es, Q es /\
     forall k, fst (calls parser_next (length es + k) (parser_start dbg e i)) = map (fun e => Ok (Some e)) es ++ repeat (Ok None) k) ->
  (forall es, Q es -> es <> []) ->
  exists e0 es, Q (e0 :: es) /\ e0 = first_event Utf8 /\
    forall k, fst (calls parser_next (S (length es + k)) (parser_start dbg EncAny i)) = Ok (Some (first_event enc)) :: map (fun e => Ok (Some e)) es ++ repeat (Ok None) k.
Proof.
  intros He Hn Hy Hs (D1 & D2 & D3 & D4) HQ Hne.
  assert (H16 : input_text16 (is_be enc) EncAny i t).
  { split; [exact D1|]. split; [exact Hy|]. split; [rewrite D3; lia|]. exists (enc16 (is_be enc) t). split; [apply encode_utf16_text, Hs|]. right. split; [reflexivity|]. split; [exact D2|].
    rewrite D3, enc16_encode. destruct He as [-> | ->]; reflexivity. }
  assert (H8 : input_text Utf8 (slice_source (encode_utf8 t)) t).
  { split; [constructor|]. split; [exact Hy|]. split.
    - change (all_bytes (slice_source (encode_utf8 t))) with (encode_utf8 t ++ []). rewrite app_nil_r. destruct (lengths t) as [L1 L2].
      destruct He as [-> | ->]; unfold encoded in D4; rewrite app_length in D4; unfold str, char, byte in *; lia.
    - exists (encode_utf8 t). split; [apply utf8_text_encode; split; [exact Hs|reflexivity]|]. cbn. apply app_nil_r. }
  destruct (HQ dbg Utf8 (slice_source (encode_utf8 t)) H8) as (es & Hes & R).
  destruct es as [|e0 es]; [destruct (Hne _ Hes eq_refl)|]. exists e0, es. split; [exact Hes|].
  assert (X : forall k, e0 = first_event Utf8 /\ fst (calls parser_next (S (length es + k)) (parser_start dbg EncAny i)) = Ok (Some (first_event enc)) :: map (fun e => Ok (Some e)) es ++ repeat (Ok None) k).
  { intros k. pose proof (R k) as Rk. cbn [length Nat.add map app] in Rk.
    destruct (calls parser_next (length es + k) (parser_start dbg Utf8 (slice_source (encode_utf8 t)))) as [os p] eqn:Ec.
    assert (Ho : Forall succeeded os).
    { assert (Hp : exists y, os ++ y = fst (calls parser_next (S (length es + k)) (parser_start dbg Utf8 (slice_source (encode_utf8 t))))).
      { replace (S (length es + k)) with (length es + k + 1)%nat by lia. revert Ec. generalize (length es + k)%nat. generalize (parser_start dbg Utf8 (slice_source (encode_utf8 t))). clear. intros q n. revert q os p. 
        induction n as [|n IH]; intros q os p E; cbn [calls] in E; [injection E as <- _; eexists; reflexivity|].
        cbn [calls Nat.add]. destruct (parser_next q) as [r q1]. destruct (calls parser_next n q1) as [l q2] eqn:E1. injection E as <- _. destruct (IH q1 l q2 E1) as [y Hy].
        exists y. destruct (calls parser_next (n + 1) q1). cbn [fst] in *. cbn [app]. congruence. }
      destruct Hp as [y Hp]. rewrite Rk in Hp.
      assert (Fa : Forall succeeded (os ++ y)).
      { rewrite Hp. constructor; [exact I|]. apply Forall_app. split; [apply Forall_map, Forall_forall; intros; exact I|apply Forall_forall; intros z Hz; apply repeat_spec in Hz; subst; exact I]. }
      apply Forall_app in Fa. apply Fa. }
    destruct (C54_events dbg (is_be enc) EncAny i Utf8 _ t _ os p H16 H8 Ec Ho) as (u & rest & E8 & E16 & Hu).
    rewrite Rk in E8. injection E8 as E0 Er. rewrite (Hu Hn) in E0. split; [exact E0|]. rewrite E16, <- Er. destruct He as [-> | ->]; reflexivity. }
  split; [apply (X O)|intros k; apply X].
Qed.

Theorem C55_utf16_round_trip : forall st plan ev l enc,
  st_canonical st = false -> effective_encoding (st_encoding st) ev = enc -> enc = Utf16Le \/ enc = Utf16Be ->
  stream_events (EvStreamStart ev :: map e_data (emitted l)) -> map e_data (emitted l) <> [EvStreamEnd] ->
  Forall (fun e => valid_event false (e_data e)) (emitted l) -> Forall (fun e => plain_data (e_data e)) (emitted l) -> abbreviable (map e_data (emitted l)) ->
  Forall (fun e => foldable (e_data e)) (emitted l) -> shallow (map e_data (emitted l)) -> visible_root (map e_data (emitted l)) ->
  exists r s', session ev l (new_emitter st plan) = (r, s') /\
  (r = Ok tt \/ exists k, r = Err (EIo (OtherIo k)) /\ In k (write_failures (new_emitter st plan))) /\
  (r = Ok tt -> forall dbg i, delivers16 i (output s') ->
    exists es, Forall2 told (map e_data (emitted l)) (map e_data es) /\
    forall k, fst (calls parser_next (S (length es + k)) (parser_start dbg EncAny i)) =
      Ok (Some (Mk_event (EvStreamStart enc) mark0 mark0)) :: map (fun e => Ok (Some e)) es ++ repeat (Ok None) k).
Proof.
  intros st plan ev l enc Hcan <- Henc Hst Hdoc Hv Hp Hab Hnb Hsh Hroot.
  destruct (layout_any_encoding st plan ev l Hcan Hst Hdoc Hv Hp Hab Hnb Hsh Hroot) as (r & s' & E & O & R). exists r, s'. split; [exact E|]. split; [exact O|].
  intros Hr dbg i Hi. destruct (R Hr) as (t & T1 & T2 & T3 & T4 & T5). rewrite T4 in Hi.
  destruct (read_wide t _ dbg i _ Henc T1 T2 T3 Hi T5) as (e0 & es & Q & -> & K).
  { intros es H ->. inversion H. }
  exists es. split; [|exact K]. cbn [map] in Q. inversion Q; assumption.
Qed.
Theorem C55_utf16_round_trip_canonical : forall st plan ev l enc,
  st_canonical st = true -> effective_encoding (st_encoding st) ev = enc -> enc = Utf16Le \/ enc = Utf16Be ->
  stream_events (EvStreamStart ev :: map e_data (emitted l)) -> map e_data (emitted l) <> [EvStreamEnd] ->
  Forall (fun e => valid_event true (e_data e)) (emitted l) -> Forall (fun e => plain_data (e_data e)) (emitted l) -> abbreviable (map e_data (emitted l)) ->
  N.of_nat (length (emitted l)) <= 2147483647 ->
  exists r s', session ev l (new_emitter st plan) = (r, s') /\
  (r = Ok tt \/ exists k, r = Err (EIo (OtherIo k)) /\ In k (write_failures (new_emitter st plan))) /\
  (r = Ok tt -> forall dbg i, delivers16 i (output s') ->
    exists es, map e_data es = reread (map e_data (emitted l)) /\
    forall k, fst (calls parser_next (S (length es + k)) (parser_start dbg EncAny i)) =
      Ok (Some (Mk_event (EvStreamStart enc) mark0 mark0)) :: map (fun e => Ok (Some e)) es ++ repeat (Ok None) k).
Proof.
  intros st plan ev l enc Hcan <- Henc Hst Hdoc Hv Hp Hab Hn.
  destruct (canonical_any_encoding st plan ev l Hcan Hst Hdoc Hv Hp Hab Hn) as (r & s' & E & O & R). exists r, s'. split; [exact E|]. split; [exact O|].
  intros Hr dbg i Hi. destruct (R Hr) as (t & T1 & T2 & T3 & T4 & T5). rewrite T4 in Hi.
  destruct (read_wide t _ dbg i _ Henc T1 T2 T3 Hi T5) as (e0 & es & Q & -> & K).
  { intros es H ->. discriminate H. }
  exists es. split; [|exact K]. cbn [map first_event e_data] in Q. injection Q as Q. exact Q.
Qed.
Print Assumptions C55_utf16_round_trip.
Print Assumptions C55_utf16_round_trip_canonical.

(** ** The hypotheses are met: the demonstrations of C47 and C40, written in UTF-16 *)
Definition one_by_one (l : list byte) : source := Mk_source [] (map (fun b => SData [b]) l).
Example demo_wide :
  let st := with_encoding Utf16Be Prop_Layout.demo_st in
  let l := Prop_Layout.demo_call_list in
  let s := session EncAny l (new_emitter st []) in
  st_canonical st = false /\ effective_encoding (st_encoding st) EncAny = Utf16Be /\ stream_events (EvStreamStart EncAny :: map e_data (emitted l)) /\
  Forall (fun e => valid_event false (e_data e)) (emitted l) /\ Forall (fun e => plain_data (e_data e)) (emitted l) /\ abbreviable (map e_data (emitted l)) /\
  Forall (fun e => foldable (e_data e)) (emitted l) /\ shallow (map e_data (emitted l)) /\ visible_root (map e_data (emitted l)) /\ fst s = Ok tt.
Proof.
  cbv zeta. split; [reflexivity|]. split; [reflexivity|]. split; [apply Prop_Layout.demo_stream|]. split; [apply Prop_Layout.demo_valid|].
  destruct Prop_Layout.demo_plain as [H1 H2]. split; [exact H1|]. destruct Prop_Layout.demo_rest as (R1 & R2 & R3). split; [exact R1|]. split; [exact H2|]. split; [exact R2|]. split; [exact R3|]. vm_compute. reflexivity.
Qed.
Definition demo_wide_output : list byte := output (snd (session EncAny Prop_Layout.demo_call_list (new_emitter (with_encoding Utf16Be Prop_Layout.demo_st) []))).
Example demo_wide_delivers : delivers16 (one_by_one demo_wide_output) demo_wide_output.
Proof.
  split; [|split; [right; vm_compute; exact I|split; vm_compute; reflexivity]]. split; [cbn; lia|]. unfold one_by_one. cbn [s_evs]. apply Forall_map, Forall_forall. reflexivity.
Qed.
Example demo_wide_back :
  firstn 10 demo_wide_output = [254; 255; 0; 107; 0; 101; 0; 121; 0; 58] /\
  tl (fst (calls parser_next 39 (parser_start true EncAny (one_by_one demo_wide_output)))) =
  tl (fst (calls parser_next 39 (parser_start true EncAny (one_by_one Prop_Layout.demo_output)))) /\
  hd_error (fst (calls parser_next 39 (parser_start true EncAny (one_by_one demo_wide_output)))) = Some (Ok (Some (first_event Utf16Be))).
Proof. split; [vm_compute; reflexivity|]. split; vm_compute; reflexivity. Qed.
Example demo_wide_canonical :
  let o := output (snd (session EncAny Prop_Canonical.demo_call_list (new_emitter (with_encoding Utf16Le Prop_Canonical.demo_st) []))) in
  fst (session EncAny Prop_Canonical.demo_call_list (new_emitter (with_encoding Utf16Le Prop_Canonical.demo_st) [])) = Ok tt /\
  map (fun r => match r with Ok (Some e) => Some (e_data e) | _ => None end) (fst (calls parser_next 16 (parser_start true EncAny (one_by_one o))))
  = map Some (EvStreamStart Utf16Le :: reread Prop_Canonical.demo_docs) ++ [None; None].
Proof. split; vm_compute; reflexivity. Qed.
