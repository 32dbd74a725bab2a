(** Prop_Located.v -- C57: errors of the reader point at the offending byte.

    Up to and including its first error, a scanner or parser that reads UTF-8 (requested or detected),
    however the input is cut into reads and whatever I/O faults follow, reports an error of the reader only
    about the first place of the input that is not an allowed character, with its offset (counted
    after a byte order mark) and with the character or byte found there. *)
From Coq Require Import Lia ZifyBool ZifyNat ZifyN Bool.
From Verif Require Import Base Utf Chars State Reader Scanner Parser Document Wp ReaderFacts Utf8Facts ScanFacts Api Spec_Reader Spec_Tokens Spec_Scanner Spec_Parser ReadFacts Located LocatedWalk Prop_Reader.
Open Scope N_scope.

(** [B]: the bytes of the input; [e]: the encoding set by the caller ([EncAny]: detected). *)
Definition reader_place (e : encoding) (B : list byte) (p : string) (o : N) (v : Z) : Prop :=
  p = "input is too long"%string /\ 9223372036854775807 <= o \/
  p = "invalid byte order marker"%string /\ o = 0 /\ e = EncAny /\ hd 0 B = 239 \/
  exists bom tx l rest,
    (bom = [] \/ e = EncAny /\ bom = [239; 187; 191]) /\ B = bom ++ l ++ rest /\
    (* the input is the text tx up to offset o, and what is there is no allowed character *)
    utf8_text tx l /\ Forall yaml_char tx /\ o = N.of_nat (length l) /\
    (p = "control characters are not allowed"%string /\
       (exists c b r, utf8_of c b /\ rest = b ++ r /\ ~ yaml_char c /\ v = Z.of_N c) \/
     p = "invalid UTF-8"%string /\ rest <> [] /\ (forall c b r, utf8_of c b -> rest <> b ++ r) /\ v = Z.of_N (hd 0 rest)).
(** UTF-8 is requested, or detected. *)
Definition reads_utf8 (e : encoding) (B : list byte) : Prop := e = Utf8 \/ e = EncAny /\ ~ In (hd 0 B) [254; 255].

Lemma place_reader e B s p o v : reads_utf8 e B -> ES B (encoding_eqb e EncAny) (EReader p o v) s -> reader_place e B p o v.
Proof.
  intros He H. cbn [ES] in H. unfold place in H.
  assert (A : encoding_eqb e EncAny = true -> e = EncAny) by apply encoding_eqb_eq.
  assert (N16 : encoding_eqb e EncAny = true -> ~ In (hd 0 B) [254; 255]).
  { intros X. apply A in X. destruct He as [->|[_ He]]; [discriminate X|exact He]. }
  destruct (enc s); try (destruct H as [H1 H2]; destruct (N16 H1 H2)).
  - destruct H as (-> & -> & Ha & Hin). right. left. split; [reflexivity|]. split; [reflexivity|]. split; [exact (A Ha)|]. destruct Hin as [Hin|Hin]; [symmetry; exact Hin|destruct (N16 Ha Hin)].
  - destruct H as [H|(bom & tx & rest & Hb & HB & Ht & Ho & Hc)]; [left; exact H|]. right. right. exists bom, tx, (encode_utf8 tx), rest.
    split; [destruct Hb as [Hb|[Ha Hb]]; [left; exact Hb|right; split; [exact (A Ha)|exact Hb]]|]. split; [exact HB|].
    split; [apply utf8_text_encode; split; [apply okcs_scalar, Ht|reflexivity]|]. split; [eapply Forall_impl; [|exact Ht]; intros c; apply okc_yaml|].
    split; [rewrite Ho, encode_len; reflexivity|]. destruct Hc as [(-> & c & r & Hs & Hr & Hn & Hv)|(-> & Hn & Hc & Hv)].
    + left. split; [reflexivity|]. exists c, (encode_utf8_char c), r. split; [apply utf8_of_encode; auto|]. split; [exact Hr|]. split; [rewrite <- okc_yaml; exact Hn|exact Hv].
    + right. split; [reflexivity|]. split; [exact Hn|]. split; [|exact Hv]. intros c b r Hu. apply utf8_of_encode in Hu. destruct Hu as [Hs ->]. apply Hc, Hs.
Qed.
Lemma start_JS dbg e i : reads_utf8 e (all_bytes i) -> JS (all_bytes i) (encoding_eqb e EncAny) (scanner_start dbg e i).
Proof.
  intros [->|[-> _]]; unfold JS; cbn.
  - exists [], []. split; [left; reflexivity|]. split; [discriminate|]. split; [constructor|]. split; reflexivity.
  - split; [reflexivity|]. split; [reflexivity|]. split; [discriminate|reflexivity].
Qed.
Lemma invoke_keep B a c : keep (JS B a) (ES B a) (invoke c).
Proof. destruct c; cbn [invoke]; [apply R_bind; [apply J_scan|intros t; apply R_ret]|apply J_scanner_next]. Qed.
Lemma session_keep B a cs : forall s os s', JS B a s -> session cs s = (os, s') -> Forall succeeded os -> JS B a s'.
Proof.
  induction cs as [|c cs IH]; intros s os s' H E Hok; cbn [session] in E; [injection E as _ <-; exact H|].
  pose proof (invoke_keep B a c s H) as K. unfold kp in K. destruct (invoke c s) as [r s1]. destruct (session cs s1) as [l s2] eqn:E2. injection E as <- <-.
  apply Forall_cons_iff in Hok. destruct Hok as [H1 H2]. destruct r; try contradiction. exact (IH _ _ _ K E2 H2).
Qed.
Theorem C57_scanner : forall dbg e i cs os s c p o v s',
  reads_utf8 e (all_bytes i) ->
  session cs (scanner_start dbg e i) = (os, s) -> Forall succeeded os ->
  invoke c s = (Err (EReader p o v), s') -> reader_place e (all_bytes i) p o v.
Proof.
  intros dbg e i cs os s c p o v s' He Hs Hok H. pose proof (session_keep _ _ _ _ _ _ (start_JS dbg e i He) Hs Hok) as J.
  pose proof (invoke_keep _ _ c s J) as K. unfold kp in K. rewrite H in K. exact (place_reader _ _ _ _ _ _ He K).
Qed.
Lemma pinvoke_keep B a c : keep (JP B a) (EP B a) (pinvoke c).
Proof.
  destruct c; cbn [pinvoke]; (apply R_bind; [|intros t; apply R_ret]); [apply J_parse|apply J_parser_next|apply J_load].
Qed.
Lemma psession_keep B a cs : forall p os p', JP B a p -> psession cs p = (os, p') -> Forall succeeded os -> JP B a p'.
Proof.
  induction cs as [|c cs IH]; intros s os s' H E Hok; cbn [psession] in E; [injection E as _ <-; exact H|].
  pose proof (pinvoke_keep B a c s H) as K. unfold kp in K. destruct (pinvoke c s) as [r s1]. destruct (psession cs s1) as [l s2] eqn:E2. injection E as <- <-.
  apply Forall_cons_iff in Hok. destruct Hok as [H1 H2]. destruct r; try contradiction. exact (IH _ _ _ K E2 H2).
Qed.
(** Parsing events and loading documents, in any order. *)
Theorem C57_parser : forall dbg e i cs os q c p o v q',
  reads_utf8 e (all_bytes i) ->
  psession cs (parser_start dbg e i) = (os, q) -> Forall succeeded os ->
  pinvoke c q = (Err (EReader p o v), q') -> reader_place e (all_bytes i) p o v.
Proof.
  intros dbg e i cs os s c p o v s' He Hs Hok H.
  assert (J0 : JP (all_bytes i) (encoding_eqb e EncAny) (parser_start dbg e i)) by exact (start_JS dbg e i He).
  pose proof (psession_keep _ _ _ _ _ _ J0 Hs Hok) as J.
  pose proof (pinvoke_keep _ _ c s J) as K. unfold kp in K. rewrite H in K. exact (place_reader _ _ _ _ _ _ He K).
Qed.
Print Assumptions C57_scanner.
Print Assumptions C57_parser.

(** ** The hypotheses are met *)
(** A control character after two tokens, and a truncated sequence in a later read; offsets count after the mark. *)
Example control_located :
  let i := Mk_source [239; 187; 191] [SData (lit "a: "); SIntr; SData [195]; SData [169; 10; 7; 98]] in
  let '(os, q) := psession [CallParse] (parser_start true EncAny i) in
  Forall succeeded os /\ fst (pinvoke CallParse q) = Err (EReader "control characters are not allowed" 6 7).
Proof. vm_compute. split; [repeat constructor|reflexivity]. Qed.
Example invalid_located :
  let i := Mk_source (lit "- x") [SData [10; 226]; SData [40; 161]] in
  let '(os, q) := session [CallNext; CallNext; CallNext] (scanner_start true Utf8 i) in
  Forall succeeded os /\ fst (invoke CallNext q) = Err (EReader "invalid UTF-8" 4 226).
Proof. vm_compute. split; [repeat constructor|reflexivity]. Qed.
