(** ParserWalk4.v -- parse_document_start, and the whole state machine. *)
From Coq Require Import ZifyBool ZifyNat ZifyN.
From Verif Require Import Base Utf Chars State Reader Scanner Parser Api Wp ReaderFacts Spec_Tokens ScanFacts TokFacts FetchFacts FetchWp FetchLoop FlowFacts Spec_Scanner SessionFacts Spec_Events EventFacts ParserFacts ParserWalk ParserWalk2 ParserWalk3.

Definition fuel_of (p : pst) : nat := Z.to_nat (phi (sc p)).
Lemma fuel_budget p : (fuel_of p < tok_budget p)%nat.
Proof.
  unfold fuel_of, tok_budget, phi, ti, mu, b2z. destruct (negb (stream_start_produced (sc p))), (negb (ended (sc p))); lia.
Qed.
Lemma phi_nonneg s : (0 <= phi s)%Z.
Proof. unfold phi, ti. pose proof (mu_nonneg s). lia. Qed.
Lemma popped_phi W del s t r : SInv W del s -> token_available s = true -> stream_end_produced s = false -> tokens s = t :: r ->
  (Z.to_nat (phi (popped t r s)) < Z.to_nat (phi s))%nat.
Proof.
  intros I Ha Hse Ht. destruct (skip_ok _ _ _ _ _ I Ha Hse Ht) as [_ [_ P]]. pose proof (pg_phi _ _ _ P).
  pose proof (phi_nonneg s). pose proof (phi_nonneg (popped t r s)). lia.
Qed.

Lemma find_app {A} (f : A -> bool) l r : find f (l ++ r) = match find f l with Some x => Some x | None => find f r end.
Proof. induction l as [|x l IH]; cbn [app find]; [reflexivity|]. destruct (f x); auto. Qed.
Lemma find_handle_is h l : find_handle h l = find (handle_is h) l.
Proof. reflexivity. Qed.
Lemma append_default_r v m s a b c tds f (Q : unit -> pst -> Prop) E P :
  (forall tds', (forall h, find (handle_is h) tds' = find (handle_is h) (tds ++ [v])) -> Q tt (Mk_pst s a b c tds' f)) ->
  wp (append_tag_directive v true m) Q E P (Mk_pst s a b c tds f).
Proof.
  intros K. unfold append_tag_directive. apply wp_bind, wp_get. cbn [tag_directives]. destruct (existsb _ tds) eqn:Ex.
  - apply wp_ret. apply K. intros h. rewrite find_app. destruct (find (handle_is h) tds) eqn:Ef; [reflexivity|]. cbn [find].
    destruct (handle_is h v) eqn:Eh; [|reflexivity]. exfalso. apply existsb_exists in Ex. destruct Ex as (x & Hin & Hx).
    unfold handle_is in *. apply str_eqb_eq in Eh. apply str_eqb_eq in Hx. pose proof (find_none _ _ Ef x Hin) as Hn. cbn beta in Hn.
    assert (str_eqb (td_handle x) h = true) by (apply str_eqb_eq; congruence). congruence.
  - apply wp_modify. unfold set_tag_directives. cbn [sc states state marks tag_directives aliases]. apply K. reflexivity.
Qed.
Lemma append_r v m st s0 del lo ts s a b c tds f (Q : unit -> pst -> Prop) : Sc st s0 del lo ts s -> forall l, mark_le m (pos s) ->
  (~ In (td_handle v) (map td_handle tds) -> Q tt (Mk_pst (set_tokens l s) a b c (tds ++ [v]) f)) ->
  PW s0 (append_tag_directive v false m) Q (Mk_pst (set_tokens l s) a b c tds f).
Proof.
  intros H l Hm K. unfold append_tag_directive, PW. apply wp_bind, wp_get. cbn [tag_directives]. destruct (existsb _ tds) eqn:Ex.
  - apply wp_fail. pose proof (perr_parser st s0 del lo ts s a b c tds f "" mark0 "found duplicate %TAG directive" m H (mark0_le _) Hm) as [].
    constructor; auto.
  - apply wp_modify. unfold set_tag_directives. cbn [sc states state marks tag_directives aliases]. apply K.
    intros Hin. apply in_map_iff in Hin. destruct Hin as (x & Hx & Hin). 
    assert (existsb (fun t => str_eqb (td_handle v) (td_handle t)) tds = true); [|congruence].
    apply existsb_exists. exists x. split; [exact Hin|]. apply str_eqb_eq. auto.
Qed.

Lemma loop_at {S A B} (n : S -> nat) (body : A -> M S (A + B)) a Q E P s :
  wp (loopM (n s) body a) Q E P s -> wp (fun s => loopM (n s) body a s) Q E P s.
Proof. exact (fun x => x). Qed.
Lemma fuel_lt a b s s' x1 x2 x3 x4 x5 y1 y2 y3 y4 y5 : prog a s s' -> (a < 0)%Z -> b = Mk_pst s' y1 y2 y3 y4 y5 ->
  (fuel_of b < fuel_of (Mk_pst s x1 x2 x3 x4 x5))%nat.
Proof. intros H Ha ->. unfold fuel_of. cbn [sc]. pose proof (pg_phi _ _ _ H). pose proof (phi_nonneg s). pose proof (phi_nonneg s'). lia. Qed.

Section document_start.
  Variables (st s0 : sst) (del : list token) (lo : mark).
  Notation ScS := (Sc st s0 del lo). Notation AtS := (At st s0 del lo).

  Lemma skip_ends_ok ts s a b c d f : ScS ts s -> forallb silent ts = true ->
    PW s0 skip_document_ends (fun _ p' => exists ts' t s', p' = Mk_pst s' a b c d f /\ AtS ts' t s' /\ forallb silent ts' = true)
      (Mk_pst s a b c d f).
  Proof.
    intros H Hs. unfold skip_document_ends, PW. apply (loop_at tok_budget).
    apply (wp_loopM (fun _ q => exists ts' s', q = Mk_pst s' a b c d f /\ ScS ts' s' /\ forallb silent ts' = true) fuel_of); [|exists ts, s; auto|apply fuel_budget].
    clear. intros _ q (ts & s & -> & H & Hs). apply wp_bind. eapply peek_rp; [exact H|]. intros t s1 H1 P1.
    assert (Hd : forall B, wp (ret (inr tt)) (fun (r : unit + unit) p' => match r with
       | inl _ => B p'
       | inr _ => exists ts' t s', p' = Mk_pst s' a b c d f /\ AtS ts' t s' /\ forallb silent ts' = true end) (perr s0) (fpanic s0) (Mk_pst s1 a b c d f)).
    { intros B. apply wp_ret. exists ts, t, s1. auto. }
    destruct (t_data t) eqn:Et; try apply (Hd (fun p' => _)).
    apply wp_bind. eapply skip_rp; [exact H1|fl|]. intros s2 H2 P2. apply wp_ret. split.
    - exists (ts ++ [t]), s2. split; [reflexivity|]. split; [exact H2|]. rewrite forallb_app, Hs. cbn. rewrite andb_true_r. fl.
    - eapply fuel_lt; [exact (prog_trans _ _ _ _ _ P1 P2)|lia|reflexivity].
  Qed.

  Definition is_dir (t : token) : bool := match t_data t with TVersionDirective _ _ | TTagDirective _ _ => true | _ => false end.
  Definition vd_ok (vd : option version_directive) : Prop := vd = None \/ vd = Some (Mk_vd 1 1) \/ vd = Some (Mk_vd 1 2).
  Record dinv (ts l : list token) (s : sst) (vd : option version_directive) (tds : list tag_directive) : Prop := {
    di_sc : ScS (ts ++ l) s;
    di_dir : forallb is_dir l = true;
    di_vs : versions l = opt_list vd;
    di_td : tag_dirs l = tds;
    di_vd : vd_ok vd;
    di_nd : NoDup (map td_handle tds) }.

  Lemma directives_ok ts t0 s a b c f : AtS ts t0 s ->
    PW s0 directives_loop (fun r p' => let '(vd, tds) := r in
       exists l t s', p' = Mk_pst s' a b c tds f /\ dinv ts l s' vd tds /\ AtS (ts ++ l) t s' /\ hd t l = t0 /\ is_dir t = false)
      (Mk_pst s a b c [] f).
  Proof.
    intros H. unfold directives_loop, PW. apply (loop_at tok_budget).
    apply (wp_loopM (fun '(vd, tds) q => exists l s', q = Mk_pst s' a b c tds f /\ dinv ts l s' vd tds /\ (l = [] -> s' = s) /\ hd t0 l = t0) fuel_of);
      [|exists [], s|apply fuel_budget].
    2:{ split; [reflexivity|]. split; [|auto]. constructor; rewrite ?app_nil_r; try reflexivity; [apply H|left; reflexivity|constructor]. }
    intros [vd tds] q (l & s1 & -> & D & Hl & Hh). apply wp_bind.
    lazymatch goal with |- wp ppeek (fun t s' => wp _ ?Q _ _ s') _ _ _ => set (Q1 := Q) end.
    assert (HQ : forall t s2, AtS (ts ++ l) t s2 -> prog 0 s1 s2 -> hd t l = t0 ->
      wp (match t_data t with
    | TVersionDirective major minor =>
        match vd with
        | Some _ => fail (EParser "" mark0 "found duplicate %YAML directive" (t_start t))
        | None =>
            if negb (major =? 1)%Z || negb (minor =? 1)%Z && negb (minor =? 2)%Z then
              fail (EParser "" mark0 "found incompatible YAML document" (t_start t))
            else pskip ;; ret (inl (Some (Mk_vd major minor), tds))
        end
    | TTagDirective handle prefix =>
        on_sc (set_front (TTagDirective [] [])) ;;
        append_tag_directive (Mk_td handle prefix) false (t_start t) ;;
        pskip ;; ret (inl (vd, tds ++ [Mk_td handle prefix]))
    | _ => ret (inr (vd, tds))
    end) Q1 (perr s0) (fpanic s0) (Mk_pst s2 a b c tds f)).
    { intros t s2 H2 P2 Ht0. destruct (tok_at _ _ _ _ _ _ _ H2) as (M1 & M2 & M3 & _).
      assert (Mp : mark_le (t_start t) (pos s2)) by (eapply mark_le_trans; eassumption).
      assert (Hnew : forall s3 vd' tds', ScS ((ts ++ l) ++ [t]) s3 -> prog (-1) s2 s3 -> is_dir t = true ->
        versions [t] ++ opt_list vd = opt_list vd' -> (versions [t] = [] \/ vd = None) -> tds ++ tag_dirs [t] = tds' -> vd_ok vd' -> NoDup (map td_handle tds') ->
        Q1 (inl (vd', tds')) (Mk_pst s3 a b c tds' f)).
      { intros s3 vd' tds' H3 P3 Hd Hv Hv2 Ht Hok Hnd. unfold Q1. destruct D. split.
        - exists (l ++ [t]), s3. split; [reflexivity|]. split; [|split; [|destruct l; [exact Ht0|exact Hh]]].
          + constructor; auto.
            * rewrite app_assoc. exact H3.
            * rewrite forallb_app, di_dir0. cbn. rewrite Hd. reflexivity.
            * unfold versions in *. rewrite flat_map_app, di_vs0. destruct Hv2 as [E| ->]; [|cbn [opt_list app] in *; rewrite app_nil_r in Hv; exact Hv].
              rewrite E, app_nil_r. rewrite E in Hv. exact Hv.
            * unfold tag_dirs in *. rewrite flat_map_app, di_td0. exact Ht.
          + destruct l; discriminate.
        - eapply fuel_lt; [exact (prog_trans _ _ _ _ _ P2 P3)|lia|reflexivity]. }
      assert (HD : is_dir t = false -> wp (ret (inr (vd, tds))) Q1 (perr s0) (fpanic s0) (Mk_pst s2 a b c tds f)).
      { intros Hd. apply wp_ret. unfold Q1. exists l, t, s2. split; [reflexivity|]. split; [|auto]. destruct D. constructor; auto. apply H2. }
      unfold is_dir in HD. destruct (t_data t) eqn:Et; try (apply HD; reflexivity).
      - (* %YAML *)
        destruct vd as [v|]; [apply wp_fail; eapply perr_parser; [apply H2|apply mark0_le|exact Mp]|].
        destruct (negb (major =? 1)%Z || negb (minor =? 1)%Z && negb (minor =? 2)%Z) eqn:Ev; [apply wp_fail; eapply perr_parser; [apply H2|apply mark0_le|exact Mp]|].
        apply wp_bind. eapply skip_rp; [exact H2|fl|]. intros s3 H3 P3. apply wp_ret. apply Hnew; auto.
        + unfold is_dir. rewrite Et. reflexivity.
        + unfold versions. cbn. rewrite Et. reflexivity.
        + unfold tag_dirs. cbn. rewrite Et. apply app_nil_r.
        + assert (major = 1%Z) as -> by lia. assert (minor = 1%Z \/ minor = 2%Z) as [-> | ->] by lia; [right; left|right; right]; reflexivity.
        + apply D.
      - (* %TAG *)
        destruct (at_tok _ _ _ _ _ _ _ H2) as (r & Hr). apply wp_bind. unfold on_sc, wp at 1. cbn [sc]. unfold set_front, modify. rewrite Hr. unfold set_sc.
        cbn [states state marks tag_directives aliases]. apply wp_bind.
        eapply (append_r (Mk_td handle prefix) (t_start t) st s0 del lo (ts ++ l) s2); [apply H2|exact Mp|]. intros Hnin. apply wp_bind.
        assert (Hne : is_stream_end t = false) by fl. pose proof (skip_pop _ _ _ _ _ _ _ _ H2 Hr Hne) as H3.
        assert (P3 : prog (-1) s2 (popped t r s2)).
        { destruct H2 as [[I Hse _ _ _ _] Ha _ _]. apply (skip_ok _ _ _ _ _ I Ha Hse Hr). }
        set (t' := Mk_token (TTagDirective [] []) (t_start t) (t_end t)).
        assert (Esk : skip_token (set_tokens (t' :: r) s2) = (Ok tt, popped t r s2)).
        { unfold skip_token, popped, is_stream_end. rewrite Et. reflexivity. }
        unfold pskip, on_sc, wp at 1. cbn [sc]. rewrite Esk. unfold set_sc. cbn [states state marks tag_directives aliases]. apply wp_ret. apply Hnew; auto.
        + unfold is_dir. rewrite Et. reflexivity.
        + unfold versions. cbn. rewrite Et. reflexivity.
        + left. unfold versions. cbn. rewrite Et. reflexivity.
        + unfold tag_dirs. cbn. rewrite Et. reflexivity.
        + apply D.
        + rewrite map_app. cbn [map td_handle]. destruct D. clear - Hnin di_nd0. cbn [td_handle] in Hnin. induction tds as [|x tds IH]; cbn in *; [repeat constructor; auto|].
          inversion di_nd0; subst. constructor; [|apply IH; tauto]. rewrite in_app_iff. cbn. intros [|[|[]]]; [tauto|]. apply Hnin. left. congruence. }
    destruct l as [|x l].
    - specialize (Hl eq_refl). subst s1. eapply peek_at; [rewrite <- (app_nil_r ts) in H; exact H|]. apply HQ; [rewrite app_nil_r; exact H|apply prog_refl|reflexivity].
    - eapply peek_rp; [apply D|]. intros t s2 H2 P2. apply HQ; auto.
  Qed.

  Lemma process_ok ts t0 s a b c f : AtS ts t0 s ->
    PW s0 process_directives (fun r p' => let '(vd, tds) := r in
       exists l t s' tds', p' = Mk_pst s' a b c tds' f /\ dinv ts l s' vd tds /\ AtS (ts ++ l) t s' /\ hd t l = t0 /\ is_dir t = false /\
         forall fs, tdok (GDoc tds fs) tds')
      (Mk_pst s a b c [] f).
  Proof.
    intros H. unfold process_directives, PW. apply wp_bind. eapply wp_conseq; [apply (directives_ok ts t0 s a b c f H)| |auto|auto].
    intros [vd tds] p' (l & t & s' & -> & D & H1 & Hh & Hd). apply wp_bind. eapply peek_at; [exact H1|].
    apply wp_bind. apply append_default_r. intros t1 E1. apply wp_bind. apply append_default_r. intros t2 E2. apply wp_ret.
    exists l, t, s', t2. split; [reflexivity|]. split; [exact D|]. split; [exact H1|]. split; [exact Hh|]. split; [exact Hd|].
    intros fs h. rewrite find_handle_is, E2, find_app, E1, <- find_app, <- app_assoc. reflexivity.
  Qed.
End document_start.

(** The end of the stream. *)
Lemma end_ok st s0 del lo g rk ts t s r al : At st s0 del lo ts t s -> tokens s = t :: r -> is_stream_end t = true -> forallb silent ts = true ->
  g = GDocs -> (1 <= rk + 4 * (length ts + 1))%nat ->
  PQ st s0 del lo g rk (Mk_event EvStreamEnd (t_start t) (t_end t)) (Mk_pst (popped t r s) [] PEnd [] [] al).
Proof.
  intros H Ht He Hs -> Hr. destruct (tok_at _ _ _ _ _ _ _ H) as (M1 & M2 & M3 & _).
  destruct H as [[I Hse P (s1 & Hs1 & Hse1 & Hah) Hlo Ho] Ha _ Ho2].
  destruct (skip_ok _ _ _ _ _ I Ha Hse Ht) as [_ [I' P']]. exists (ts ++ [t]), GEnd.
  assert (Hsil : silent t = true) by (unfold is_stream_end, silent in *; destruct (t_data t); auto; discriminate).
  constructor; cbn [e_data e_start e_end ds_of sc state states marks tag_directives]; auto.
  - apply explains_plain; [|reflexivity]. rewrite forallb_app, Hs. cbn. rewrite Hsil. reflexivity.
  - exact Logic.I.
  - constructor; cbn [sc state states marks tag_directives is_end]; auto.
    + rewrite app_assoc. exact I'.
    + exists (popped t r s). split; [|split; [exact He|left; reflexivity]]. rewrite app_assoc. eapply scanned_snoc; [exact Hs1|].
      unfold scanner_next, bind, get. rewrite Hse1. unfold scan, bind, get. rewrite Hse1.
      destruct Hah as [<-|[H1 H2]].
      * rewrite Ha. unfold ret. rewrite Ht, He. unfold popped. rewrite He. reflexivity.
      * rewrite H1, H2, Ht, He. unfold ret. unfold popped. rewrite He. reflexivity.
    + right. right. exists (del ++ ts), t. rewrite <- app_assoc. auto.
    + exact Logic.I.
    + reflexivity.
  - eapply prog_weaken; [eapply prog_trans; [exact P|exact P']|]. rewrite app_length. cbn [length]. lia.
  - cbn [rank weight]. rewrite app_length. cbn [length]. lia.
Qed.

Lemma explains_doc ds l t vd tds : forallb is_dir l = true -> versions l = opt_list vd -> tag_dirs l = tds -> t_data t = TDocumentStart ->
  explains ds (l ++ [t]) (EvDocumentStart vd tds false).
Proof.
  intros Hd Hv Ht Et.
  assert (H0 : forall A (f : token -> list A), (forall u, is_dir u = true -> f u = []) -> f t = [] -> flat_map f (l ++ [t]) = []).
  { intros A f Hf Hft. rewrite flat_map_app. cbn [flat_map]. rewrite Hft. clear -Hd Hf. induction l as [|x l IH]; [reflexivity|].
    cbn [forallb] in Hd. apply andb_true_iff in Hd. destruct Hd as [H1 H2]. cbn [flat_map app]. rewrite (Hf _ H1). cbn [app]. exact (IH H2). }
  assert (H1 : forall u d, is_dir u = true -> t_data u = d -> match d with TVersionDirective _ _ | TTagDirective _ _ => True | _ => False end).
  { intros u d Hu <-. unfold is_dir in Hu. destruct (t_data u); try discriminate; exact I. }
  constructor.
  - apply H0; [|rewrite Et; reflexivity]. intros u Hu. unfold is_dir in Hu. destruct (t_data u); try reflexivity; discriminate.
  - apply H0; [|rewrite Et; reflexivity]. intros u Hu. unfold is_dir in Hu. destruct (t_data u); try reflexivity; discriminate.
  - unfold tags. rewrite H0; [reflexivity| |rewrite Et; reflexivity]. intros u Hu. unfold is_dir in Hu. destruct (t_data u); try reflexivity; discriminate.
  - apply H0; [|rewrite Et; reflexivity]. intros u Hu. unfold is_dir in Hu. destruct (t_data u); try reflexivity; discriminate.
  - unfold versions in *. rewrite flat_map_app, Hv. cbn. rewrite Et. apply app_nil_r.
  - unfold tag_dirs in *. rewrite flat_map_app, Ht. cbn. rewrite Et. apply app_nil_r.
  - unfold doc_starts. rewrite filter_app, app_length. cbn [filter]. rewrite Et. cbn [length].
    assert (filter (fun t0 => match t_data t0 with TDocumentStart => true | _ => false end) l = []) as ->; [|reflexivity].
    clear -Hd. induction l as [|x l IH]; [reflexivity|]. cbn [forallb filter] in *. apply andb_true_iff in Hd. destruct Hd as [H1 H2]. rewrite (IH H2).
    unfold is_dir in H1. destruct (t_data x); try reflexivity; discriminate.
  - apply Forall_app. split; [|constructor; [rewrite Et; exact I|constructor]]. apply Forall_forall. intros u Hu.
    rewrite forallb_forall in Hd. specialize (Hd _ Hu). unfold is_dir in Hd. destruct (t_data u); try exact I; discriminate.
Qed.

Lemma document_start_ok (implicit : bool) st del lo g s sts x ms tds al : x = (if implicit then PImplicitDocumentStart else PDocumentStart) ->
  OK st del lo g (parse_document_start implicit) (Mk_pst s sts x ms tds al).
Proof.
  intros Hx H. assert (Hex : is_end x = false) by (rewrite Hx; destruct implicit; reflexivity).
  pose proof (Sc_start _ _ _ _ _ H Hex) as H0. pose proof (pi_marks _ _ _ _ _ H) as Hl. pose proof (pi_g _ _ _ _ _ H) as Hg.
  pose proof (pi_td _ _ _ _ _ H) as Ht. cbn [sc state states marks nmarks tag_directives] in *.
  assert (sts = [] /\ GDocs = g) as [-> <-].
  { rewrite Hx in Hg. destruct implicit; cbn [gof] in Hg; destruct sts; try discriminate; injection Hg as <-; auto. }
  cbn in Ht. subst tds. assert (ms = []) as -> by (rewrite Hx in Hl; destruct implicit, ms; auto; discriminate).
  set (rk := rank [x]). unfold parse_document_start, PW. apply wp_bind.
  lazymatch goal with |- wp _ (fun _ s' => wp (bind ppeek ?K) _ _ _ s') _ _ _ => set (k := K) end.
  assert (HK : forall ts t s1, At st s del lo ts t s1 -> forallb silent ts = true -> (implicit = true -> ts = []) ->
    PW s (k t) (PQ st s del lo GDocs rk) (Mk_pst s1 [] x [] [] al)).
  2:{ destruct implicit.
      - apply wp_ret. apply wp_bind. eapply peek_r; [exact H0|]. intros t s1 H1. eapply HK; [exact H1|reflexivity|reflexivity].
      - eapply wp_conseq; [apply (skip_ends_ok st s del lo [] s [] x [] [] al H0 eq_refl)| |auto|auto].
        cbn beta. intros _ p' (ts & t & s1 & -> & H1 & Hs). apply wp_bind. eapply peek_at; [exact H1|]. eapply HK; [exact H1|exact Hs|discriminate]. }
  intros ts t s1 H1 Hs Hi. unfold k, PW. clear k.
  destruct (implicit && negb (is_directive_or_boundary (t_data t))) eqn:Eb; [|destruct (negb (is_stream_end t)) eqn:Ee].
  - (* implicit document *)
    apply andb_true_iff in Eb. destruct Eb as [-> Eb]. rewrite (Hi eq_refl) in *. clear Hi Hs. apply negb_true_iff in Eb.
    apply wp_bind. eapply wp_conseq; [apply (process_ok st s del lo [] t s1 [] x [] al H1)| |auto|auto].
    intros [vd tds] p' (l & t' & s2 & tds' & -> & D & H2 & Hh & Hd & Htd). cbn [app] in *.
    assert (l = []) as ->.
    { destruct l as [|y l]; [reflexivity|]. cbn in Hh. subst y. pose proof (di_dir _ _ _ _ _ _ _ _ _ D) as F. cbn [forallb] in F. apply andb_true_iff in F.
      destruct F as [F _]. unfold is_dir in F. unfold is_directive_or_boundary in Eb. destruct (t_data t); discriminate. }
    cbn in Hh. subst t'. pose proof (di_td _ _ _ _ _ _ _ _ _ D) as Etd. cbn in Etd. subst tds.
    apply wp_bind. unfold push_state. apply wp_modify. unfold set_states. cbn [sc states state marks tag_directives aliases].
    apply wp_bind. unfold goto. apply wp_modify. unfold set_state. cbn [sc states state marks tag_directives aliases]. apply wp_ret.
    destruct (evm_at _ _ _ _ _ _ _ (t_end t) H2 (or_intror eq_refl)) as (E1 & E2 & E3 & E4).
    apply (leaf_sc st s del lo GDocs rk [] s2 _ _ _ _ _ _ (GDoc [] [FRoot])); cbn [e_data e_start e_end ds_of]; auto.
    + apply H2.
    + constructor; cbn; auto.
    + split; [left; reflexivity|constructor].
    + exact I.
    + unfold rk. rewrite Hx. cbn. lia.
  - (* explicit document *)
    apply negb_true_iff in Ee. apply wp_bind. eapply wp_conseq; [apply (process_ok st s del lo ts t s1 [] x [] al H1)| |auto|auto].
    intros [vd tds] p' (l & t' & s2 & tds' & -> & D & H2 & Hh & Hd & Htd). apply wp_bind. eapply peek_at; [exact H2|].
    destruct (tok_at _ _ _ _ _ _ _ H2) as (M1 & M2 & M3 & M4).
    assert (HF : forall Q : event -> pst -> Prop, PW s (fail (EParser "" mark0 "did not find expected <document start>" (t_start t'))) Q (Mk_pst s2 [] x [] tds' al)).
    { intros Q. apply wp_fail. eapply perr_parser; [apply H2|apply mark0_le|eapply mark_le_trans; eassumption]. }
    destruct (t_data t') eqn:Et; try apply HF. clear HF.
    apply wp_bind. unfold push_state. apply wp_modify. unfold set_states. cbn [sc states state marks tag_directives aliases].
    apply wp_bind. unfold goto. apply wp_modify. unfold set_state. cbn [sc states state marks tag_directives aliases].
    apply wp_bind. eapply skip_r; [exact H2|fl|]. intros s3 H3. apply wp_ret.
    assert (Hin' : In t' ((ts ++ l) ++ [t'])) by (apply in_or_app; right; left; reflexivity).
    destruct (tok_in _ _ _ _ _ _ _ H3 Hin') as [N1 N2].
    assert (Hle : mark_le lo (t_start t) /\ mark_le (t_start t) (t_end t')).
    { destruct l as [|y l]; cbn in Hh; subst.
      - auto.
      - destruct (M4 t) as (A1 & A2 & A3); [apply in_or_app; right; left; reflexivity|]. split; [exact A3|].
        eapply mark_le_trans; [exact A2|]. eapply mark_le_trans; eassumption. }
    destruct Hle as [Hle1 Hle2].
    eapply (leaf_sc st s del lo GDocs rk ((ts ++ l) ++ [t']) s3 _ _ _ _ _ _ (GDoc tds [FRoot])); cbn [e_data e_start e_end ds_of]; auto.
    + rewrite <- app_assoc. apply explains_silent; [exact Hs|reflexivity|]. apply explains_doc; [apply D..|exact Et].
    + split; [exact (di_vd _ _ _ _ _ _ _ _ _ D)|exact (di_nd _ _ _ _ _ _ _ _ _ D)].
    + exact I.
    + unfold rk. rewrite Hx, !app_length. destruct implicit; cbn; lia.
    + right. exists (ts ++ l), t'. auto.
  - (* end of the stream *)
    apply negb_false_iff in Ee. apply wp_bind. unfold goto. apply wp_modify. unfold set_state. cbn [sc states state marks tag_directives aliases].
    destruct (at_tok _ _ _ _ _ _ _ H1) as (r & Hr).
    assert (Esk : skip_token s1 = (Ok tt, popped t r s1)).
    { destruct H1 as [[I Hse _ _ _ _] Ha _ _]. apply (skip_ok _ _ _ _ _ I Ha Hse Hr). }
    apply wp_bind. unfold pskip, on_sc, wp at 1. cbn [sc]. rewrite Esk. unfold set_sc. cbn [states state marks tag_directives aliases]. apply wp_ret.
    eapply end_ok; eauto. lia.
Qed.

(** ** One call *)
Theorem state_machine_ok st del lo g p : PI st del lo g p -> is_end (state p) = false ->
  PW (sc p) state_machine (PQ st (sc p) del lo g (rank (state p :: states p))) p.
Proof.
  intros H He. destruct p as [s sts x ms tds al]. unfold state_machine, PW. apply wp_bind, wp_get. cbn [state] in *.
  assert (Hg := pi_g _ _ _ _ _ H). cbn [state states] in Hg.
  destruct x; try discriminate He; try discriminate Hg; revert H; change (PI st del lo g ?p -> wp ?m _ _ _ ?p) with (OK st del lo g m p).
  - apply stream_start_ok.
  - apply (document_start_ok true); reflexivity.
  - apply (document_start_ok false); reflexivity.
  - apply document_content_ok.
  - apply document_end_ok.
  - apply block_node_ok.
  - apply (block_seq_ok true); reflexivity.
  - apply (block_seq_ok false); reflexivity.
  - apply indentless_ok.
  - apply (block_map_key_ok true); reflexivity.
  - apply (block_map_key_ok false); reflexivity.
  - apply block_map_value_ok.
  - apply (flow_seq_ok true); reflexivity.
  - apply (flow_seq_ok false); reflexivity.
  - apply flow_entry_key_ok.
  - apply flow_entry_value_ok.
  - apply flow_entry_end_ok.
  - apply (flow_map_key_ok true); reflexivity.
  - apply (flow_map_key_ok false); reflexivity.
  - apply (flow_map_value_ok false); reflexivity.
  - apply (flow_map_value_ok true); reflexivity.
Qed.
