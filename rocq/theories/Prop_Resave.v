(** Prop_Resave.v -- C50: load, save, load again.

    Documents loaded from any YAML text, then saved with any settings, come back as the same
    documents: the same nodes under the same numbers, the same tags, values and directives.  What a
    document must satisfy to be saved (C43, C48) always holds of a loaded one, except what is asked of
    its tags and of shared nodes. *)
From Coq Require Import Lia ZifyBool ZifyNat ZifyN Bool.
From Verif Require Import Base Utf Chars State Reader Scanner Parser EState Emitter Document Api Spec_Reader Spec_Scanner Spec_Parser Spec_Events EventFacts Spec_Document Spec_Dump Spec_Emitter Spec_EmitNames
  Spec_Canonical Spec_Save Spec_Kept Spec_Folded Spec_Resave DumpFacts DumpTree Prop_Emitter Prop_Parser Prop_Document Prop_Copy EmitIo Prop_Save Prop_Kept LoadedWalk.
From Verif Require Prop_Canonical Prop_Reader Prop_EmitGrammar EmitFolded.
Open Scope N_scope.

(** ** What holds of every loaded document *)
Lemma documents_parts es ds : documents_from es ds -> forall d, In d ds -> d_nodes d <> [] -> exists g, document_of g d /\ incl g es.
Proof.
  induction 1 as [|g d0 es ds Hd _ IH|e n He]; intros d Hin Hne; [contradiction| |].
  - destruct Hin as [->|Hin]; [exists g; split; [exact Hd|apply incl_appl, incl_refl]|]. destruct (IH d Hin Hne) as (g' & H1 & H2). exists g'. split; [exact H1|apply incl_appr, H2].
  - apply repeat_spec in Hin. subst d. contradiction.
Qed.
Lemma forall2_right {A B} (P : A -> B -> Prop) l l' : Forall2 P l l' -> forall y, In y l' -> exists x, In x l /\ P x y.
Proof. induction 1 as [|x y l l' H _ IH]; intros z []; [subst; exists x; split; [left; reflexivity|exact H]|]. destruct (IH z) as (w & H1 & H2); [assumption|]. exists w. split; [right; exact H1|exact H2]. Qed.
Lemma starts_in es e : In e (node_starts es) -> In e es. Proof. unfold node_starts. rewrite filter_In. tauto. Qed.
Lemma node_tag_some t d : d <> [] -> d <> lit "!" -> all (fun x => x <> []) t -> exists x, node_tag t d = Some x /\ x <> [] /\ x <> lit "!".
Proof.
  intros Hd Hb Ht. destruct t as [x|]; cbn [node_tag]; [|exists d; auto]. destruct (str_eqb x (lit "!")) eqn:E; [exists d; auto|]. exists x. split; [reflexivity|]. split; [exact Ht|].
  intros ->. vm_compute in E. discriminate.
Qed.
Lemma default_tags : STR_TAG <> [] /\ SEQ_TAG <> [] /\ MAP_TAG <> [] /\ STR_TAG <> lit "!" /\ SEQ_TAG <> lit "!" /\ MAP_TAG <> lit "!".
Proof. vm_compute. repeat split; discriminate. Qed.
Lemma calls_oks es : Forall succeeded (events_ok es) /\ events_of (events_ok es) = es.
Proof. split; [induction es; constructor; [exact Logic.I|assumption]|]. induction es as [|e es IH]; [reflexivity|]. cbn. f_equal. exact IH. Qed.

Record fit (d : document) : Prop := {
  fit_nodes : d_nodes d <> [];
  fit_tags : forall n, In n (d_nodes d) -> exists x, n_tag n = Some x /\ x <> [] /\ x <> lit "!";
  fit_values : forall n v st, In n (d_nodes d) -> n_data n = Document.NScalar v st -> Forall (fun c => c < 55296 \/ 57344 <= c < 1114112) v;
  fit_version : all valid_version (d_version_directive d);
  fit_directives : Forall valid_directive (d_tag_directives d) /\ NoDup (map td_handle (d_tag_directives d)) }.
Lemma described e nd : describes e nd -> valid_names true (e_data e) ->
  match e_data e with EvScalar _ _ v _ _ _ => Forall unicode v | _ => True end ->
  (exists x, n_tag nd = Some x /\ x <> [] /\ x <> lit "!") /\ (forall v st, n_data nd = Document.NScalar v st -> Forall unicode v).
Proof.
  destruct default_tags as (D1 & D2 & D3 & D4 & D5 & D6).
  intros [_ D] [_ V] U. destruct (e_data e) as [| | | | |a t v pi qi sy|a t i sy| |a t i sy|] eqn:Ed, (n_data nd) as [|v' st'|ks st'|kvs st'] eqn:En; try contradiction; cbn [written_tag orb] in V.
  - destruct D as (-> & -> & -> & _). split; [apply node_tag_some; assumption|]. intros v0 st0 [= <- <-]. exact U.
  - destruct D as (-> & ->). split; [apply node_tag_some; assumption|discriminate].
  - destruct D as (-> & ->). split; [apply node_tag_some; assumption|discriminate].
Qed.
Theorem loaded_fit dbg e i tx n ds p d : input_text e i tx -> calls load n (parser_start dbg e i) = (map Ok ds, p) -> In d ds -> d_nodes d <> [] -> fit d.
Proof.
  intros Hi H Hin Hne. destruct n as [|n]; [cbn in H; injection H as H _; destruct ds; [contradiction|discriminate]|].
  destruct (C20_loads_follow_the_events _ _ _ _ _ _ H) as (e0 & en & es & E0 & Hc & Hd). destruct (documents_parts _ _ Hd d Hin Hne) as (g & Hg & Hincl).
  destruct (calls_oks (e0 :: es)) as [Hok Hev]. pose proof (parsed_valid true _ _ _ _ _ _ Hc Hok) as V. pose proof (parsed_values _ _ _ _ _ _ _ Hi Hc Hok) as U. rewrite Hev in V, U.
  unfold Prop_EmitGrammar.all_valid in V. rewrite Forall_forall in V, U.
  assert (K : forall nd, In nd (d_nodes d) -> (exists x, n_tag nd = Some x /\ x <> [] /\ x <> lit "!") /\ (forall v st, n_data nd = Document.NScalar v st -> Forall unicode v)).
  { intros nd Hnd. destruct (forall2_right _ _ _ (proj1 (C20_node_table _ _ Hg)) nd Hnd) as (ev & Hs & D). apply starts_in, Hincl in Hs.
    apply (described ev nd D); [exact (proj1 (V ev (or_intror Hs)))|]. pose proof (U (e_data ev) (in_map e_data (e0 :: es) ev (or_intror Hs))) as X. cbv beta in X. destruct (e_data ev); try exact Logic.I. exact X. }
  destruct Hg as (vd & tds & si & s0 & e1 & t & ei & s1 & e2 & env & k & Eg & _ & Ed).
  assert (X : In (Mk_event (EvDocumentStart vd tds si) s0 e1) es) by (apply Hincl; rewrite Eg; left; reflexivity).
  destruct (V _ (or_intror X)) as (_ & W & _). cbn [e_data valid_directives] in W. destruct W as (W1 & W2 & W3).
  assert (Ev : d_version_directive d = vd) by (rewrite Ed; reflexivity). assert (Et : d_tag_directives d = tds) by (rewrite Ed; reflexivity).
  constructor; [exact Hne|intros nd Hnd; apply (K nd Hnd)|intros nd v st Hnd Hv; exact (proj2 (K nd Hnd) v st Hv)|rewrite Ev; exact W1|rewrite Et; auto].
Qed.
(** Whatever is loaded can be saved, if its tags can be written and only nodes near the root are
    shared. *)
Theorem loaded_storable dbg e i tx n ds p d : input_text e i tx -> calls load n (parser_start dbg e i) = (map Ok ds, p) -> In d ds -> d_nodes d <> [] ->
  writable_tags d -> shared_near_the_root d -> storable d.
Proof.
  intros Hi H Hin Hne [T1 T2] Hsh. pose proof (loaded_fit _ _ _ _ _ _ _ _ Hi H Hin Hne) as [F1 F2 F3 F4 [F5 F6]].
  destruct (C18_loaded_documents_are_sound _ _ _ _ _ _ _ H Hin) as [->|[_ Hs]]; [contradiction|].
  split; [exact Hne|]. split; [exact Hs|]. split; [|split; [exact F4|]; split; [exact F5|]; split; [exact F6|]; split; [exact T1|exact Hsh]].
  apply Forall_forall. intros nd Hnd. rewrite Forall_forall in T2. specialize (T2 nd Hnd). destruct (F2 nd Hnd) as (x & Ex & Nx & _). rewrite Ex in T2. cbn [all] in T2. split.
  - rewrite Ex. split; [exact Nx|exact T2].
  - pose proof (F3 nd) as X. destruct (n_data nd) as [|v st|ks st|kvs st]; try exact Logic.I. exact (X v st Hnd eq_refl).
Qed.

(** ** Two loaded documents with the same graph are the same *)
Lemma nodes_identity (P : (Z -> Z) -> node -> node -> Prop) m a b w w' :
  (forall m n n', P m n n' -> linked m n n') ->
  m 1%Z = 1%Z ->
  (forall k, reachable a k -> exists n n', kth_node a k = Some n /\ kth_node b (m k) = Some n' /\ P m n n') ->
  (forall j k, reachable a j -> reachable a k -> m j = m k -> j = k) ->
  walks a [] w (down (length a)) -> goes_to w = 1%Z -> walks b [] w' (down (length b)) -> goes_to w' = 1%Z ->
  (forall k, (1 <= k <= Z.of_nat (length a))%Z -> m k = k) /\ Forall2 (P m) a b.
Proof.
  intros HP M1 HL HI W G W' G'.
  destruct (iso_identity a b m) with (w := w) (w' := w') as [El Ek]; auto.
  { intros k Hk. destruct (HL k Hk) as (n & n' & A & B & C). exists n, n'. auto. }
  split; [intros k Hk; apply Ek, Hk|].
  assert (Q : forall i, (i < length a)%nat -> exists n n', nth_error a i = Some n /\ nth_error b i = Some n' /\ P m n n').
  { intros i Hi'. destruct (Ek (Z.of_nat i + 1)%Z ltac:(lia)) as [R E]. destruct (HL _ R) as (n & n' & A & B & C). rewrite E in B. unfold kth_node in A, B.
    replace (1 <=? Z.of_nat i + 1)%Z with true in A, B by lia. replace (Z.to_nat (Z.of_nat i + 1 - 1)) with i in A, B by lia. exists n, n'. auto. }
  clear - El Q. revert b El Q. induction a as [|x a IH]; intros [|y b] El Q; try discriminate El; constructor.
  - destruct (Q 0%nat ltac:(cbn; lia)) as (n & n' & [= <-] & [= <-] & H). exact H.
  - apply IH; [cbn in El; lia|]. intros i Hi. apply (Q (S i)). cbn. lia.
Qed.
Lemma map_id_on (m : Z -> Z) l N : (forall k, (1 <= k <= N)%Z -> m k = k) -> Forall (fun i => 1 <= i <= N)%Z l -> map m l = l.
Proof. intros H F. induction F as [|x l Hx _ IH]; [reflexivity|]. cbn [map]. rewrite IH, H; [reflexivity|exact Hx]. Qed.
Lemma map_id_on2 (m : Z -> Z) l N : (forall k, (1 <= k <= N)%Z -> m k = k) -> Forall (fun '(x, y) => (1 <= x <= N)%Z /\ (1 <= y <= N)%Z) l -> map (fun '(x, y) => (m x, m y)) l = l.
Proof. intros H F. induction F as [|[x y] l [Hx Hy] _ IH]; [reflexivity|]. cbn [map]. rewrite IH, !H; [reflexivity|assumption..]. Qed.
Lemma kept_linked m n n' : kept_node m n n' -> linked m n n'.
Proof. unfold kept_node, linked. destruct (n_data n); intros H; try exact H; apply H. Qed.
Lemma same_kept m n n' : same_node m n n' -> kept_node m n n'.
Proof. unfold same_node, kept_node. destruct (n_data n); intros H; try exact H; destruct H as [-> ->]; (split; [eexists; reflexivity|reflexivity]). Qed.
Lemma plain_tag n d x : n_tag n = Some x -> x <> lit "!" -> node_tag (n_tag n) d = n_tag n.
Proof. intros -> H. cbn [node_tag]. destruct (str_eqb x (lit "!")) eqn:E; [|reflexivity]. apply ScanFacts.str_eqb_eq in E. contradiction. Qed.

Lemma kept_same g d g' d' : document_of g d -> document_of g' d' -> fit d -> Forall (sound_node (Z.of_nat (length (d_nodes d)))) (d_nodes d) ->
  kept_graph (d_nodes d) (d_nodes d') -> Forall2 same_content (d_nodes d) (d_nodes d').
Proof.
  intros Hg Hg' F Hs (m & M1 & ML & MI & _). destruct (loaded_walk _ _ Hg) as (w & W & G & _). destruct (loaded_walk _ _ Hg') as (w' & W' & G' & _).
  destruct (nodes_identity kept_node m _ _ w w' kept_linked M1 ML MI W G W' G') as [Id F2]. pose proof (fit_tags _ F) as Ft. clear - Id F2 Ft Hs.
  set (N := Z.of_nat (length (d_nodes d))) in *. clearbody N. induction F2 as [|n n' l l' K _ IH]; [constructor|]. constructor.
  - destruct (Ft n (or_introl eq_refl)) as (x & Ex & _ & Nx). apply Forall_inv in Hs. unfold kept_node in K. unfold sound_node in Hs. unfold same_content. destruct (n_data n) as [|v st|ks st|kvs st]; [contradiction| | |];
      destruct K as [(st' & ->) ->]; (split; [apply (plain_tag _ _ x Ex Nx)|]); [reflexivity|exact (map_id_on m ks N Id Hs)|exact (map_id_on2 m kvs N Id Hs)].
  - apply IH; [exact (Forall_inv_tail Hs)|]. intros k Hk. apply Ft. right. exact Hk.
Qed.
Lemma kept_nonempty a b : kept_graph a b -> b <> [].
Proof. intros (m & M1 & ML & _). destruct (ML 1%Z) as (n & n' & _ & K & _); [constructor|]. rewrite M1 in K. intros ->. discriminate K. Qed.
Lemma saved_kept ds ds' : saved_as ds ds' -> Forall2 kept_document ds ds'.
Proof.
  induction 1 as [|d ds d' ds' (m & M1 & ML & MI & MO) V T _ _ _ IH]; constructor; [|exact IH]. split; [|auto]. exists m. split; [exact M1|]. split; [|auto].
  intros k Hk. destruct (ML k Hk) as (n & n' & A & B & C). exists n, n'. split; [exact A|]. split; [exact B|]. apply same_kept, C.
Qed.
Lemma reloaded dbg e i tx n ds p dbg' e' i' n' ds' p' : input_text e i tx -> calls load n (parser_start dbg e i) = (map Ok ds, p) -> Forall (fun d => d_nodes d <> []) ds ->
  calls load n' (parser_start dbg' e' i') = (map Ok ds', p') -> Forall2 kept_document ds ds' -> Forall2 same_document ds ds'.
Proof.
  intros Hi H Hne H' F.
  assert (L : forall d, In d ds -> fit d /\ Forall (sound_node (Z.of_nat (length (d_nodes d)))) (d_nodes d) /\ exists g, document_of g d).
  { intros d Hin. rewrite Forall_forall in Hne. specialize (Hne d Hin). assert (Nd : d <> no_document) by (intros ->; apply Hne; reflexivity).
    split; [apply (loaded_fit _ _ _ _ _ _ _ _ Hi H Hin Hne)|]. destruct (C18_loaded_documents_are_sound _ _ _ _ _ _ _ H Hin) as [->|[_ Hs]]; [contradiction|]. split; [exact Hs|].
    destruct (C19_anchors_of_loaded_documents _ _ _ _ _ _ _ H Hin Nd) as (g & Hg & _). exists g. exact Hg. }
  assert (L' : forall d, In d ds' -> d_nodes d <> [] -> exists g, document_of g d).
  { intros d Hin Hn. assert (Nd : d <> no_document) by (intros ->; apply Hn; reflexivity). destruct (C19_anchors_of_loaded_documents _ _ _ _ _ _ _ H' Hin Nd) as (g & Hg & _). exists g. exact Hg. }
  clear - L L' F. induction F as [|d d' ds ds' (K & V & T) _ IH]; [constructor|]. constructor.
  - destruct (L d (or_introl eq_refl)) as (Fi & So & g & Hg). destruct (L' d' (or_introl eq_refl) (kept_nonempty _ _ K)) as (g' & Hg').
    split; [|auto]. apply (kept_same g d g' d'); assumption.
  - apply IH; intros x Hx; [apply L|apply L']; right; exact Hx.
Qed.

(** ** C50 *)
(** [n] calls of [load] on any YAML text (input, encoding and chunks as in C44) that gave the
    documents [ds], none of them the empty one that stands for the end.  Saved with any settings
    without [canonical] and any fault schedule, [ds] are written unless the output handler fails; and
    what was written, however it is delivered, is loaded as the same documents, and nothing else. *)
Theorem C50_load_save_load : forall dbg e i tx n ds p st plan,
  input_text e i tx -> calls load n (parser_start dbg e i) = (map Ok ds, p) ->
  ds <> [] -> Forall (fun d => d_nodes d <> []) ds -> Forall writable_tags ds -> Forall shared_near_the_root ds ->
  st_canonical st = false -> effective_encoding (st_encoding st) EncAny = Utf8 ->
  Forall (fun d => Forall node_foldable (d_nodes d)) ds -> invisible (hd no_document ds) = false -> N.of_nat (volume ds) < 214748363 ->
  exists r s', save ds (new_emitter st plan) = (r, s') /\
  (r = Ok tt \/ exists k, r = Err (EIo (OtherIo k)) /\ In k (write_failures (new_emitter st plan))) /\
  (r = Ok tt -> forall dbg' e' i', Prop_Canonical.delivers i' (output s') -> e' = Utf8 \/ e' = EncAny /\ first_read_ok i' /\ hd 0 (output s') <> 239 ->
    exists ds', Forall2 same_document ds ds' /\
    forall k, fst (calls load (length ds + k) (parser_start dbg' e' i')) = map Ok ds' ++ repeat (Ok no_document) k).
Proof.
  intros dbg e i tx n ds p st plan Hi H Hne Hnd Ht Hsh Hcan Henc Hf Hinv Hvol.
  assert (S : Forall storable ds).
  { rewrite Forall_forall in *. intros d Hin. apply (loaded_storable _ _ _ _ _ _ _ _ Hi H Hin); auto. }
  destruct (C48_saved_documents_are_kept st plan ds Hcan Henc Hne S Hf Hinv Hvol) as (r & s' & R1 & R2 & R3). exists r, s'. split; [exact R1|]. split; [exact R2|].
  intros Hr dbg' e' i' Hd He. destruct (R3 Hr dbg' e' i' Hd He) as (ds' & K & L). exists ds'. split; [|exact L].
  pose proof (L 0%nat) as L0. cbn [repeat] in L0. rewrite app_nil_r in L0. destruct (calls load (length ds + 0) (parser_start dbg' e' i')) as [os q] eqn:E. cbn [fst] in L0. subst os.
  apply (reloaded _ _ _ _ _ _ _ _ _ _ _ _ _ Hi H Hnd E K).
Qed.
(** With [canonical]: no condition on folded scalars or on the first document. *)
Theorem C50_load_save_load_canonical : forall dbg e i tx n ds p st plan,
  input_text e i tx -> calls load n (parser_start dbg e i) = (map Ok ds, p) ->
  ds <> [] -> Forall (fun d => d_nodes d <> []) ds -> Forall writable_tags ds -> Forall shared_near_the_root ds ->
  st_canonical st = true -> effective_encoding (st_encoding st) EncAny = Utf8 -> N.of_nat (volume ds) < 2147483647 ->
  exists r s', save ds (new_emitter st plan) = (r, s') /\
  (r = Ok tt \/ exists k, r = Err (EIo (OtherIo k)) /\ In k (write_failures (new_emitter st plan))) /\
  (r = Ok tt -> forall dbg' e' i', Prop_Canonical.delivers i' (output s') -> e' = Utf8 \/ e' = EncAny /\ first_read_ok i' ->
    exists ds', Forall2 same_document ds ds' /\
    forall k, fst (calls load (length ds + k) (parser_start dbg' e' i')) = map Ok ds' ++ repeat (Ok no_document) k).
Proof.
  intros dbg e i tx n ds p st plan Hi H Hne Hnd Ht Hsh Hcan Henc Hvol.
  assert (S : Forall storable ds).
  { rewrite Forall_forall in *. intros d Hin. apply (loaded_storable _ _ _ _ _ _ _ _ Hi H Hin); auto. }
  destruct (C43_saved_documents_are_loaded st plan ds Hcan Henc Hne S Hvol) as (r & s' & R1 & R2 & R3). exists r, s'. split; [exact R1|]. split; [exact R2|].
  intros Hr dbg' e' i' Hd He. destruct (R3 Hr dbg' e' i' Hd He) as (ds' & K & L). exists ds'. split; [|exact L].
  pose proof (L 0%nat) as L0. cbn [repeat] in L0. rewrite app_nil_r in L0. destruct (calls load (length ds + 0) (parser_start dbg' e' i')) as [os q] eqn:E. cbn [fst] in L0. subst os.
  apply (reloaded _ _ _ _ _ _ _ _ _ _ _ _ _ Hi H Hnd E (saved_kept _ _ K)).
Qed.
(** Where no event of the text is an alias, no node is shared, so that condition is met. *)
Lemma walk_decides d w seen : walks (d_nodes d) [] w seen -> goes_to w = 1%Z -> (forall k, In k (revisited w) -> (2 <= occurrences k (root_references (d_nodes d)))%nat) -> shared_near_the_root d.
Proof.
  intros W G H w' seen' k W' G' Hk. destruct (walks_unique (d_nodes d)) as (U & _). destruct (U _ _ _ W _ _ W') as [<- _]; [congruence|]. apply H, Hk.
Qed.
Theorem C50_texts_without_aliases : forall dbg e i n ds p,
  calls load n (parser_start dbg e i) = (map Ok ds, p) ->
  (forall k es q, calls parser_next k (parser_start dbg e i) = (map (fun e => Ok (Some e)) es, q) -> Forall no_alias es) ->
  Forall shared_near_the_root ds.
Proof.
  intros dbg e i n ds p H Ha. destruct n as [|n]; [cbn in H; injection H as H _; destruct ds; [constructor|discriminate]|].
  destruct (C20_loads_follow_the_events _ _ _ _ _ _ H) as (e0 & en & es & E0 & Hc & Hd). apply Ha in Hc. apply Forall_inv_tail in Hc. rewrite Forall_forall in Hc.
  apply Forall_forall. intros d Hin. destruct (d_nodes d) as [|n0 ns] eqn:En.
  - intros w seen k W G. exfalso. rewrite En in W. inversion W; subst; cbn [goes_to] in *; subst; try contradiction; discriminate.
  - destruct (documents_parts _ _ Hd d Hin ltac:(rewrite En; discriminate)) as (g & Hg & Hincl). destruct (loaded_walk _ _ Hg) as (w & W & G & R).
    apply (walk_decides d w _ W G). rewrite R; [intros k []|]. apply Forall_forall. intros x Hx. apply Hc, Hincl, Hx.
Qed.
Print Assumptions C50_load_save_load.
Print Assumptions C50_load_save_load_canonical.
Print Assumptions C50_texts_without_aliases.

(** ** A case: two documents, with a directive, comments, and an alias of an item of the root. *)
Definition rs_text : str :=
  lit "%TAG !e! tag:e,2000:" ++ [10] ++ lit "--- # one" ++ [10] ++ lit "!e!k 7 : [x," ++ [10] ++ lit " ""y\""""]" ++ [10] ++ lit "..." ++ [10] ++
  lit "---" ++ [10] ++ lit "- &a {k: ! v}" ++ [10] ++ lit "- *a" ++ [10] ++ lit "- >-" ++ [10] ++ lit "   f" ++ [10] ++ lit "   g" ++ [10].
Definition rs_source : source := Mk_source [] (map (fun b => SData [b]) (encode_utf8 rs_text)).
Example rs_input : input_text EncAny rs_source rs_text.
Proof.
  split; [repeat constructor; discriminate|]. split; [let t := eval vm_compute in rs_text in change rs_text with t; repeat apply Forall_cons; try apply Forall_nil; unfold yaml_char; lia|].
  split; [vm_compute; reflexivity|]. exists (encode_utf8 rs_text). split; [apply Prop_Reader.utf8_text_encode; split; [repeat constructor|reflexivity]|].
  split; [right; vm_compute; exact Logic.I|]. right. split; [vm_compute; reflexivity|vm_compute; discriminate].
Qed.
Definition rs_run := calls load 2 (parser_start true EncAny rs_source).
Definition rs_docs : list document := flat_map (fun r => match r with Ok d => [d] | _ => [] end) (fst rs_run).
Definition content (n : node) : node_data * option str := (n_data n, n_tag n).
Example rs_loaded : fst rs_run = map Ok rs_docs /\ map (fun d => map content (d_nodes d)) rs_docs =
  [[(Document.NMapping [(2, 3)]%Z MapBlock, Some MAP_TAG); (Document.NScalar (lit "7") SPlain, Some (lit "tag:e,2000:k")); (Document.NSequence [4; 5]%Z SeqFlow, Some SEQ_TAG);
    (Document.NScalar (lit "x") SPlain, Some STR_TAG); (Document.NScalar (lit "y""") SDouble, Some STR_TAG)];
   [(Document.NSequence [2; 2; 5]%Z SeqBlock, Some SEQ_TAG); (Document.NMapping [(3, 4)]%Z MapFlow, Some MAP_TAG); (Document.NScalar (lit "k") SPlain, Some STR_TAG);
    (Document.NScalar (lit "v") SPlain, Some STR_TAG); (Document.NScalar (lit "f g") SFolded, Some STR_TAG)]].
Proof. vm_compute. auto. Qed.

Definition rs_st : settings := Mk_settings EncAny false 2 80 true BrLn.
Lemma rs_calls_eq : calls load 2 (parser_start true EncAny rs_source) = (map Ok rs_docs, snd rs_run).
Proof. rewrite <- (proj1 rs_loaded). unfold rs_run. generalize (calls load 2 (parser_start true EncAny rs_source)). intros [a b]. reflexivity. Qed.
Example rs_hyps : rs_docs <> [] /\ Forall (fun d => d_nodes d <> []) rs_docs /\ Forall writable_tags rs_docs /\ Forall shared_near_the_root rs_docs /\
  Forall (fun d => Forall node_foldable (d_nodes d)) rs_docs /\ invisible (hd no_document rs_docs) = false /\ N.of_nat (volume rs_docs) = 35.
Proof.
  let t := eval vm_compute in rs_docs in assert (E : rs_docs = t) by (vm_compute; reflexivity). rewrite E.
  split; [discriminate|]. split; [repeat apply Forall_cons; try apply Forall_nil; discriminate|]. split; [|split; [|split; [|split; [vm_compute; reflexivity|vm_compute; reflexivity]]]].
  - repeat apply Forall_cons; try apply Forall_nil; (split; [repeat apply Forall_cons; try apply Forall_nil; unfold ascii_text; demo_text|]);
      repeat apply Forall_cons; try apply Forall_nil; (split; [unfold ascii_text; demo_text|apply known_prefix; reflexivity]).
  - apply Forall_cons; [|apply Forall_cons; [|apply Forall_nil]].
    + eapply (walk_decides _ (WkMapping 1 [(WkScalar 2, WkSequence 3 [WkScalar 4; WkScalar 5])])%Z [5; 4; 3; 2; 1]%Z); [|reflexivity|intros k []].
      eapply Wk_mapping; [intros []|reflexivity|reflexivity|]. eapply WP_cons; [eapply Wk_scalar; [cbn; lia|reflexivity|reflexivity]| |apply WP_nil].
      eapply Wk_sequence; [cbn; lia|reflexivity|reflexivity|]. eapply WL_cons; [eapply Wk_scalar; [cbn; lia|reflexivity|reflexivity]|]. eapply WL_cons; [eapply Wk_scalar; [cbn; lia|reflexivity|reflexivity]|apply WL_nil].
    + eapply (walk_decides _ (WkSequence 1 [WkMapping 2 [(WkScalar 3, WkScalar 4)]; WkRef 2; WkScalar 5])%Z [5; 4; 3; 2; 1]%Z); [|reflexivity|intros k [<-|[]]; apply Nat.leb_le; vm_compute; reflexivity].
      eapply Wk_sequence; [intros []|reflexivity|reflexivity|]. eapply WL_cons.
      { eapply Wk_mapping; [cbn; lia|reflexivity|reflexivity|]. eapply WP_cons; [eapply Wk_scalar; [cbn; lia|reflexivity|reflexivity]|eapply Wk_scalar; [cbn; lia|reflexivity|reflexivity]|apply WP_nil]. }
      eapply WL_cons; [apply Wk_ref; cbn; auto|]. eapply WL_cons; [eapply Wk_scalar; [cbn; lia|reflexivity|reflexivity]|apply WL_nil].
  - repeat apply Forall_cons; try apply Forall_nil; first [exact Logic.I|unfold node_foldable; cbv beta iota; apply EmitFolded.always_tested; vm_compute; reflexivity].
Qed.
Definition rs_output : list byte := output (snd (save rs_docs (new_emitter rs_st []))).
Example rs_saved : rs_output = encode_utf8 (
    lit "%TAG !e! tag:e,2000:" ++ [10] ++ lit "---" ++ [10] ++ lit "!e!k 7: [x, ""y\""""]" ++ [10] ++ lit "..." ++ [10] ++ lit "---" ++ [10] ++
    lit "- &id001 {k: v}" ++ [10] ++ lit "- *id001" ++ [10] ++ lit "- >-" ++ [10] ++ lit "  f g" ++ [10]).
Proof. vm_compute. reflexivity. Qed.
Example rs_theorem : exists s', save rs_docs (new_emitter rs_st []) = (Ok tt, s') /\
  forall dbg' e' i', Prop_Canonical.delivers i' (output s') -> e' = Utf8 \/ e' = EncAny /\ first_read_ok i' /\ hd 0 (output s') <> 239 ->
    exists ds', Forall2 same_document rs_docs ds' /\
    forall k, fst (calls load (length rs_docs + k) (parser_start dbg' e' i')) = map Ok ds' ++ repeat (Ok no_document) k.
Proof.
  destruct rs_hyps as (H1 & H2 & H3 & H4 & H5 & H6 & H7).
  destruct (C50_load_save_load _ _ _ _ _ _ _ rs_st [] rs_input rs_calls_eq H1 H2 H3 H4 eq_refl eq_refl H5 H6) as (r & s' & R & F & K); [rewrite H7; reflexivity|].
  destruct F as [->|(k & _ & F)]; [|vm_compute in F; destruct F]. exists s'. split; [exact R|]. exact (K eq_refl).
Qed.

