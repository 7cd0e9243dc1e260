(** The log entry that raises while it is formatted (VIPv4OutOfRangeRaised): it is the last one, and
    ValueError follows. *)
From Coq Require Import Ascii String.
From Coq Require Import NArith ZArith Bool Arith Lia ZifyBool ZifyN ZifyNat List.
From Verif Require Import PyStr PyInt Codec Env HostModel UrlRecord Parser SearchParams UrlApi Schemes Validators Repr Idna Message MsgHost MsgParser MsgValidators MsgApi SpecText SpecHost FlatParser.
From Verif Require Import Lemmas CodecProofs QuoteProofs IdnaProofs IntGrammar IPv4Proofs HostProofs LoopProofs FlatProofs TermProofs WfProofs RoundTrip LooseProofs ParserProofs UrlProps ValidatorProofs ApiProofs ObjProofs ValidityProofs MsgProofs MsgHostProofs MsgParserProofs MsgCallProofs MsgValidatorProofs MsgApiProofs.
From Verif Require Import SpecPyInt SpecUrl SpecParser SpecApi SpecReports SpecRepr SpecIdna SpecMessages SpecValidity SpecRaised.
Import ListNotations.
Open Scope N_scope.

Definition wends {A} (w : W A) : Prop :=
  ~ In RAISED (fst w) \/ exists l, fst w = l ++ [RAISED] /\ ~ In RAISED l /\ snd w = Err EValue.
Lemma wends_quiet {A} (w : W A) : ~ In RAISED (fst w) -> wends w. Proof. now left. Qed.
Lemma wends_bind {A B} (m : W A) (k : A -> W B) : wends m -> (forall a, wends (k a)) -> wends (wbind m k).
Proof.
  intros H1 H2. unfold wends, wbind in *. destruct m as [l [a|e]]; cbn [fst snd] in *.
  - destruct H1 as [H1|(l0 & _ & _ & H1)]; [|discriminate H1]. specialize (H2 a). destruct (k a) as [l' r]; cbn [fst snd] in *.
    destruct H2 as [H2|(l0 & -> & H2 & H3)]; [left|right]; [rewrite in_app_iff; tauto|]. exists (l ++ l0). rewrite app_assoc, in_app_iff. tauto.
  - destruct H1 as [H1|(l0 & H1 & H4 & H3)]; [now left|right]. exists l0. repeat split; auto. now injection H3 as ->.
Qed.
Lemma wends_ret {A} (a : A) : wends (wret a). Proof. left. intros []. Qed.
Lemma wends_raise {A} e : wends (@wraise A e). Proof. left. intros []. Qed.
Lemma wends_log v : v <> RAISED -> wends (wlog v). Proof. intros H. left. intros [X|[]]. auto. Qed.
Lemma wends_fail {A} v e : v <> RAISED -> wends (@wfail A v e). Proof. intros H. left. intros [X|[]]. auto. Qed.
Lemma wends_raised {A} : wends (@wfail A RAISED EValue). Proof. right. exists []. repeat split. intros []. Qed.
Lemma wends_opt {A} e (o : option A) : wends (of_opt e o). Proof. destruct o; [apply wends_ret|apply wends_raise]. Qed.
Ltac we := repeat first
  [ apply wends_ret | apply wends_raise | apply wends_log; discriminate | apply wends_raised | apply wends_fail; discriminate | apply wends_opt | apply wends_bind; [|intros ?]
  | match goal with |- wends (if ?b then _ else _) => destruct b
                  | |- wends (match ?x with _ => _ end) => destruct x end
  | progress cbv zeta ].
Lemma ends_numbers E parts : wends (ipv4_numbers E parts).
Proof. induction parts; cbn [ipv4_numbers]; [apply wends_ret|]. we. exact IHparts. Qed.
Lemma ends_ipv4 E s : wends (ipv4_parse E s).
Proof. unfold ipv4_parse. we; apply ends_numbers. Qed.
Lemma ends_piece E c st : wends (ipv6_piece E c st). Proof. unfold ipv6_piece. we. Qed.
Lemma ends_sep E c st : wends (ipv6_sep E c st). Proof. unfold ipv6_sep. we; apply ends_piece. Qed.
Lemma ends_loop E rest : forall st, wends (ipv6_loop E rest st).
Proof. induction rest as [|c t IH]; intros st; cbn [ipv6_loop]; we; try apply ends_sep; apply IH. Qed.
Lemma ends_ipv6 E s : wends (ipv6_parse E s).
Proof. unfold ipv6_parse. we; apply ends_loop. Qed.
Lemma ends_ascii E b d : wends (domain_to_ascii E b d).
Proof. unfold domain_to_ascii. we. Qed.
Lemma ends_host E h ns : wends (host_parse E h ns).
Proof.
  unfold host_parse, parse_opaque_host.
  repeat first [ apply ends_ipv6 | apply ends_ascii | apply ends_ipv4
    | match goal with |- wends (wfail _ _) => apply wends_fail; discriminate | |- wends (wret _) => apply wends_ret | |- wends (wlog _) => apply wends_log; discriminate
      | |- wends (wbind _ _) => apply wends_bind; [|intros ?] | |- wends (if ?b then _ else _) => destruct b
      | |- wends (match ?x with _ => _ end) => destruct x end
    | progress cbv zeta ].
Qed.
Definition ends {A} (m : M A) : Prop := forall u,
  ~ In RAISED (fst (m u)) \/ exists l, fst (m u) = l ++ [RAISED] /\ ~ In RAISED l /\ snd (snd (m u)) = Err EValue.
Lemma ends_bind {A B} (m : M A) (k : A -> M B) : ends m -> (forall a, ends (k a)) -> ends (bind m k).
Proof.
  intros H1 H2 u. specialize (H1 u). unfold bind in *. destruct (m u) as [l [u' [a|e]]]; cbn [fst snd] in *.
  - destruct H1 as [H1|(l0 & _ & _ & H1)]; [|discriminate H1]. specialize (H2 a u'). destruct (k a u') as [l' [u'' r]]; cbn [fst snd] in *.
    destruct H2 as [H2|(l0 & -> & H2 & H3)]; [left|right]; [rewrite in_app_iff; tauto|]. exists (l ++ l0). rewrite app_assoc, in_app_iff. tauto.
  - destruct H1 as [H1|(l0 & H1 & H4 & H3)]; [now left|right]. exists l0. repeat split; auto. now injection H3 as ->.
Qed.
Lemma ends_ret {A} (a : A) : ends (ret a). Proof. left. intros []. Qed.
Lemma ends_get : ends get. Proof. left. intros []. Qed.
Lemma ends_modify f : ends (modify f). Proof. left. intros []. Qed.
Lemma ends_logm v : v <> RAISED -> ends (logm v). Proof. intros H. left. intros [X|[]]. auto. Qed.
Lemma ends_raise {A} e : ends (@raise A e). Proof. left. intros []. Qed.
Lemma ends_fail {A} v e : v <> RAISED -> ends (@fail A v e). Proof. intros H. left. intros [X|[]]. auto. Qed.
Lemma ends_when b m : ends m -> ends (when b m). Proof. destruct b; [auto|]. intros _. apply ends_ret. Qed.
Lemma ends_lift {A} (w : W A) : wends w -> ends (lift w). Proof. intros H u. exact H. Qed.
Ltac tm := repeat first
  [ apply ends_ret | apply ends_get | apply ends_modify | apply ends_logm; discriminate | apply ends_fail; discriminate | apply ends_raise
  | apply ends_lift; apply ends_host | apply ends_when | apply ends_bind; [|intros ?]
  | match goal with |- ends (if ?b then _ else _) => destruct b
                  | |- ends (match ?x with _ => _ end) => destruct x end
  | progress cbv zeta ].
Lemma ends_append x : ends (path_append x). Proof. unfold path_append. tm. Qed.
Lemma ends_shorten : ends shorten_path. Proof. unfold shorten_path. tm. Qed.
Lemma ends_check c t : ends (check_unit c t). Proof. unfold check_unit. tm. Qed.
Lemma ends_flush c b : ends (path_flush c b). Proof. unfold path_flush. tm; auto using ends_append, ends_shorten. Qed.
Lemma ends_query_flush E enc b : ends (query_flush E enc b). Proof. unfold query_flush, query_append. tm. Qed.
Lemma ends_step E base enc so st rest : ends (step E base enc so st rest).
Proof.
  destruct st; cbn [step].
  - apply ends_ret.
  - unfold parse_authority. apply ends_bind; [|intros ?; apply ends_ret].
    set (x := false) at 1. generalize 0%nat, (@nil N), x, false. clear x. induction rest as [|c t IH]; intros i b x y; cbn [authority_loop]; [unfold authority_end; tm|].
    destruct (c =? 64); [|tm; [unfold authority_end; tm|apply IH]]. apply ends_bind; [tm|intros _]. cbv zeta. destruct (if y then _ else _) as [[? ?] ?]. tm. apply IH.
  - unfold parse_file_host. generalize 0%nat, (@nil N). induction rest as [|c t IH]; intros i b; cbn [file_host_loop]; [|destruct (mem c _); [|apply IH]]; unfold file_host_end; tm.
  - unfold parse_file_slash. tm; apply ends_append.
  - unfold parse_file. tm; apply ends_shorten.
  - unfold parse_fragment. generalize 0%nat, (@nil N). induction rest as [|c t IH]; intros i b; cbn [fragment_loop]; [unfold fragment_append; tm|]. apply ends_bind; [apply ends_check|intros _; apply IH].
  - unfold parse_host. tm. generalize 0%nat, (@nil N), false. induction rest as [|c t IH]; intros i b x; cbn [host_loop]; [unfold host_end; tm|]. tm; try (unfold host_end; tm; fail); apply IH.
  - unfold parse_host. tm. generalize 0%nat, (@nil N), false. induction rest as [|c t IH]; intros i b x; cbn [host_loop]; [unfold host_end; tm|]. tm; try (unfold host_end; tm; fail); apply IH.
  - unfold parse_no_scheme. tm.
  - unfold parse_opaque_path. generalize 0%nat. induction rest as [|c t IH]; intros i; cbn [opaque_path_loop]; [tm|]. destruct (c =? 63); [tm|]. destruct (c =? 35); [tm|].
    apply ends_bind; [apply ends_check|intros _]. unfold path_extend. apply ends_bind; [tm|intros _; apply IH].
  - unfold parse_path_or_authority. tm.
  - unfold parse_path_start. tm; apply ends_append.
  - unfold parse_path. generalize 0%nat, (@nil N). induction rest as [|c t IH]; intros i b; cbn [path_loop]; [apply ends_bind; [apply ends_flush|intros _; tm]|].
    apply ends_bind; [apply ends_get|intros u]. destruct (_ || _ || _).
    + apply ends_bind; [tm|intros _]. apply ends_bind; [apply ends_flush|intros _]. destruct (c =? 63); [tm|]. destruct (c =? 35); [tm|]. apply IH.
    + apply ends_bind; [apply ends_check|intros _; apply IH].
  - unfold parse_port. generalize 0%nat, (@nil N). induction rest as [|c t IH]; intros i b; cbn [port_loop]; [unfold port_end; tm|]. destruct (mem c _); [apply IH|]. unfold port_end; tm.
  - unfold parse_query. generalize 0%nat, (@nil N). induction rest as [|c t IH]; intros i b; cbn [query_loop]; [apply ends_bind; [apply ends_when, ends_query_flush|intros _; tm]|].
    destruct (_ && _); [apply ends_bind; [apply ends_query_flush|intros _; tm]|]. apply ends_bind; [apply ends_check|intros _; apply IH].
  - unfold parse_relative_slash. tm.
  - unfold parse_relative. tm; apply ends_shorten.
  - unfold parse_scheme. destruct rest as [|c t]; [tm|]. destruct (mem c _); [|tm]. generalize 1%nat, [c]. clear c. induction t as [|d t IH]; intros i b; cbn [scheme_loop]; [tm|].
    destruct (_ || _); [apply IH|]. tm.
  - apply ends_raise.
  - unfold parse_ignore_slashes. generalize 0%nat. induction rest as [|c t IH]; intros i; cbn [ignore_slashes_loop]; [tm|]. destruct (mem c _); [|tm]. apply ends_bind; [tm|intros _; apply IH].
  - unfold parse_special_authority_slashes. tm.
  - unfold parse_special_relative_or_authority. tm.
Qed.
Lemma ends_fsm E base enc so : forall n st rest, ends (run_fsm n E base enc so st rest).
Proof.
  induction n as [|n IH]; intros st rest; [destruct st; cbn [run_fsm]; tm|].
  assert (st = EOF \/ st <> EOF) as [->|Hst] by (destruct st; auto; right; discriminate); [apply ends_ret|].
  rewrite run_fsm_S by auto. apply ends_bind; [apply ends_step|]. intros r. apply IH.
Qed.
Lemma ends_new E s base enc : wends (parse_new E s base enc).
Proof.
  assert (P : ends (when (needs_strip s) (logm VInvalidURLUnit);; parse_into E (strip_c0 s) base enc None)).
  { apply ends_bind; [apply ends_when, ends_logm; discriminate|intros _]. unfold parse_into. apply ends_bind; [apply ends_when, ends_logm; discriminate|intros _]. apply ends_fsm. }
  specialize (P new_url). unfold parse_new, wends in *. destruct ((when (needs_strip s) (logm VInvalidURLUnit);; parse_into E (strip_c0 s) base enc None) new_url) as [l [u [a|e]]]; cbn [fst snd] in *; destruct P as [P|(l0 & P1 & P2 & P3)]; auto; [discriminate P3|].
  right. exists l0. injection P3 as ->. auto.
Qed.
Lemma ends_url E s base enc : wends (parse_url E s base enc).
Proof. unfold parse_url. apply wends_bind; [|intros b; apply ends_new]. destruct base; we. apply ends_new. Qed.

(* ---------- what the recorded texts then look like ---------- *)
Lemma tells_quiet P N l l' : ~ In RAISED l' -> Forall2 (tells P (unquoted true N)) l l' -> Forall2 (tells P (unquoted true False)) l l'.
Proof.
  intros H F. induction F as [|en v l l' T F IH]; constructor; [|apply IH; intros X; apply H; now right]. destruct T as (T1 & T2). split; [exact T1|]. destruct (e_text en); [exact T2|].
  exfalso. destruct T2 as (_ & T2). cbv iota in T2. apply H. left. exact T2.
Qed.
Lemma tells_described P l l' : Forall2 (tells P (unquoted true False)) l l' -> Forall (fun en => e_text en <> None) l.
Proof. induction 1 as [|en v l l' T F IH]; constructor; [|exact IH]. destruct T as (_ & T). destruct (e_text en); [discriminate|]. destruct T as ([] & _). Qed.
Section Url.
Context (X : menv).
Local Notation E1 := (with_validity (m_env X) true).
Context (HL : limit_ok E1) (HI : idna_ok E1).
Lemma described_or s base enc : enc_ok E1 (normalize_encoding E1 enc) -> is_pystr s -> short s -> base_parsed E1 base -> (forall t, base = BStr t -> short t) ->
  Forall (fun en => e_text en <> None) (fst (m_parse_url (checking X) s base enc)) \/
  exists l en, fst (m_parse_url (checking X) s base enc) = l ++ [en] /\ Forall (fun en => e_text en <> None) l /\
    e_type en = $"IPv4-out-of-range-part" /\ e_text en = None /\ snd (m_parse_url (checking X) s base enc) = MErr EValue None.
Proof.
  intros H1 H2 H3 H4 H5. pose proof (parse_url_sim (checking X) HL HI s base enc H1 H2 H3 H4 H5) as (S1 & S2).
  change (m_env (checking X)) with E1 in S1, S2. change (m_icu_code (checking X)) with (m_icu_code X) in S1, S2. change (has_validity E1) with true in S1, S2.
  pose proof (ends_url E1 s base enc) as EN. unfold wends in EN. destruct (m_parse_url (checking X) s base enc) as [l r], (parse_url E1 s base enc) as [l' r']. cbn [fst snd] in *.
  destruct EN as [EN|(l0 & -> & EN & ->)]; [left; eapply tells_described, tells_quiet; eassumption|].
  apply Forall2_app_inv_r in S1 as (k & k2 & F1 & F2 & ->). inversion F2 as [|en v ? ? T F3]; subst. inversion F3; subst. clear F2 F3.
  destruct T as (T1 & T2). destruct (e_text en) eqn:TX.
  - exfalso. destruct T2 as (bits & m & K & _). exact (url_no_raised E1 (m_icu_code X) base enc s bits K).
  - right. exists k, en. repeat split; auto; [eapply tells_described, tells_quiet; eassumption|]. destruct r as [u|e t]; cbn [same] in S2; [contradiction|]. destruct S2 as (-> & [S2|(S2 & _)]).
    + destruct t as [t|]; cbn [blames] in S2; [destruct S2 as (S2 & _); discriminate S2|reflexivity].
    + discriminate S2.
Qed.
Lemma url_check_quiet s base enc : enc_ok E1 (normalize_encoding E1 enc) -> is_pystr s -> short s -> base_parsed E1 base -> (forall t, base = BStr t -> short t) -> forall v v',
  agrees (m_url_is_valid X s base enc v) (url_is_valid (m_env X) s base enc v') /\
  (snd (parse_url E1 s base enc) <> Err EValue -> says (url_check E1 (m_icu_code X) base enc s) (m_url_is_valid X s base enc v)).
Proof.
  intros H1 H2 H3 H4 H5 v v'. pose proof (parse_url_sim (checking X) HL HI s base enc H1 H2 H3 H4 H5) as (S1 & S2).
  change (m_env (checking X)) with E1 in S1, S2. change (m_icu_code (checking X)) with (m_icu_code X) in S1, S2. change (has_validity E1) with true in S1, S2.
  assert (PS : forall u, snd (parse_url E1 s base enc) = Ok u -> parsed E1 u).
  { intros u H. destruct base as [|b|b]; cbn [base_parsed] in H4.
    - exact (parsed_none E1 s enc u H2 H1 H).
    - exact (parsed_str E1 s b enc u H2 H4 H1 H).
    - exact (parsed_rec E1 s b enc u H2 H4 H1 H). }
  assert (SC : forall u w b, snd (parse_url E1 s base enc) = Ok u -> w = VUndefined /\ ~ In (scheme u) REGISTERED_SCHEMES /\ b = [Txt $"scheme is not registered in the IANA URI Schemes registry: "; Lit (PStr (scheme u))] -> url_check E1 (m_icu_code X) base enc s w b).
  { intros u w b Q (-> & NI & ->). now apply ku_scheme. }
  unfold m_url_is_valid, url_is_valid. cbv zeta. pose proof (ends_url E1 s base enc) as EN. unfold wends in EN. destruct (m_parse_url (checking X) s base enc) as [l r], (parse_url E1 s base enc) as [l' r']. cbn [fst snd] in *.
  pose proof (apply_kept _ _ _ _ (url_no_raised E1 (m_icu_code X) base enc s) S1 _ _ (kept_fresh v v')) as K.
  assert (O : r' <> Err EValue -> in_order (call_message E1 (m_icu_code X) base enc s) (ms_apply l (ms_start v))).
  { intros NU. eapply (apply_order _ False _ l'); [tauto|eapply tells_quiet; [|exact S1]|apply order_start]. destruct EN as [EN|(l0 & _ & _ & EN)]; [exact EN|contradiction]. }
  destruct r as [u|e t], r' as [u'|e']; cbn [same] in S2; try contradiction.
  - subst u'. specialize (PS u eq_refl). apply parsed_wf in PS as ((SO & _) & _).
    assert (L : lower (scheme u) = scheme u /\ ascii_str (scheme u)).
    { split; [now apply scheme_lower|]. apply Forall_forall. intros c Hc. destruct (scheme u) as [|d t]; [destruct Hc|]. destruct SO as [O1 O2].
      destruct Hc as [<-|Hc]; [lia|]. rewrite forallb_forall in O2. specialize (O2 c Hc). unfold scheme_tail_char in O2. lia. }
    destruct L as [L A].
    destruct (scheme_check_sim X (scheme u) A (Some (ms_apply l (ms_start v))) (Some (vs_apply l' (vs_start v')))) as ((G1 & G2) & G3). rewrite L in G3.
    destruct (m_is_valid_url_scheme X (scheme u) (Some (ms_apply l (ms_start v)))) as [r st], (is_valid_url_scheme (m_env X) (scheme u) (Some (vs_apply l' (vs_start v')))) as [r' st']. cbn [fst snd] in *.
    destruct r as [b|e t]; [|discriminate G1]. split.
    + destruct K as (K1 & K2 & K3 & K4), G2 as (J1 & J2 & J3 & J4). split; [cbn [fst untold ms_iadd vs_iadd ms_count vs_count]; now rewrite K4, J4|].
      repeat split; cbn [snd ms_iadd vs_iadd ms_valid ms_types ms_descs ms_count vs_valid vs_types vs_descs vs_count]; [now rewrite K1, J1|now rewrite K2, J2, map_app|rewrite app_length; congruence|congruence].
    + intros NU. specialize (O NU). destruct G3 as (G3 & _). destruct O as (O1 & O2 & O3), G3 as (J1 & J2 & J3). cbn [snd] in *.
      assert (IO : in_order (url_check E1 (m_icu_code X) base enc s) (ms_iadd st (ms_apply l (ms_start v)))).
      { split; [|split]; cbn [ms_iadd ms_types ms_descs ms_count ms_valid].
        - apply Forall2_app.
          + eapply F2_impl; [|exact J1]. cbv beta. intros ty d (w & bits & m & B1 & B2 & B3). exists w, bits, m. split; [exact B1|]. split; [exact (SC u w bits eq_refl B2)|exact B3].
          + eapply F2_impl; [|exact O1]. cbv beta. intros ty d (w & bits & m & B1 & B2 & B3). exists w, bits, m. split; [exact B1|]. split; [now apply ku_parse|exact B3].
        - rewrite app_length. congruence.
        - rewrite andb_true_iff, J3, O3. split; [intros (-> & ->); reflexivity|apply app_eq_nil]. }
      split; [exact IO|]. left. cbn [fst snd]. f_equal. eapply order_count. exact IO.
  - destruct S2 as (<- & S2). split; [split; [cbn [fst]; destruct (is_url_error e); reflexivity|exact K]|]. intros NU. specialize (O NU).
    split; [eapply order_mono; [|exact O]; apply ku_parse|]. cbn [fst snd]. destruct S2 as [S2|(_ & x & bits & _ & [] & _)]. destruct t as [t|]; cbn [blames] in S2.
    + destruct S2 as (-> & l0 & w & bits & m & -> & _). left. f_equal. rewrite apply_types, map_app, rev_app_distr. reflexivity.
    + rewrite S2. right. now exists e.
Qed.
End Url.

Section Short.
Context (X : menv).
Local Notation E1 := (with_validity (m_env X) true).
Context (HL : limit_ok E1) (HI : idna_ok E1).
Lemma order_or s base enc st : enc_ok E1 (normalize_encoding E1 enc) -> is_pystr s -> short s -> base_parsed E1 base -> (forall t, base = BStr t -> short t) ->
  in_order (call_message E1 (m_icu_code X) base enc s) st ->
  in_order (call_message E1 (m_icu_code X) base enc s) (ms_apply (fst (m_parse_url (checking X) s base enc)) st) \/
  one_short (call_message E1 (m_icu_code X) base enc s) (ms_apply (fst (m_parse_url (checking X) s base enc)) st) /\ snd (m_parse_url (checking X) s base enc) = MErr EValue None.
Proof.
  intros H1 H2 H3 H4 H5 H6. pose proof (described_or X HL HI s base enc H1 H2 H3 H4 H5) as D. pose proof (parse_url_sim (checking X) HL HI s base enc H1 H2 H3 H4 H5) as (S1 & _).
  change (m_env (checking X)) with E1 in S1. change (m_icu_code (checking X)) with (m_icu_code X) in S1. change (has_validity E1) with true in S1.
  assert (G : forall l l', Forall (fun en => e_text en <> None) l -> Forall2 (tells (call_message E1 (m_icu_code X) base enc s) (unquoted true (call_unquotable E1 base s))) l l' ->
    in_order (call_message E1 (m_icu_code X) base enc s) (ms_apply l st)).
  { intros l l' D0 F. eapply (apply_order _ False _ l'); [tauto| |exact H6]. clear - D0 F. induction F as [|en v l l' T F IH]; constructor; inversion D0; subst; auto. destruct T as (T1 & T2). split; [exact T1|]. destruct (e_text en); [exact T2|congruence]. }
  destruct D as [D|(l & en & D1 & D2 & D3 & D4 & D5)]; [left; eapply G; eassumption|]. right. split; [|exact D5].
  rewrite D1 in *. apply Forall2_app_inv_l in S1 as (k & k2 & F1 & _ & _). exists (ms_apply l st). split; [eapply G; eassumption|].
  unfold ms_apply. rewrite fold_left_app. cbn [fold_left]. unfold ms_log at 1. rewrite D4, D3. reflexivity.
Qed.
Lemma url_check_or s base enc v : enc_ok E1 (normalize_encoding E1 enc) -> is_pystr s -> short s -> base_parsed E1 base -> (forall t, base = BStr t -> short t) ->
  says (url_check E1 (m_icu_code X) base enc s) (m_url_is_valid X s base enc v) \/
  one_short (call_message E1 (m_icu_code X) base enc s) (snd (m_url_is_valid X s base enc v)) /\ fst (m_url_is_valid X s base enc v) = MErr EValue None.
Proof.
  intros H1 H2 H3 H4 H5. destruct (order_or s base enc (ms_start v) H1 H2 H3 H4 H5 (order_start _ v)) as [O|(O & R)].
  - left. destruct (url_check_quiet X HL HI s base enc H1 H2 H3 H4 H5 v None) as (_ & Q).
    assert (D : snd (parse_url E1 s base enc) <> Err EValue \/ snd (parse_url E1 s base enc) = Err EValue) by (destruct (snd (parse_url E1 s base enc)) as [u|[]]; auto; left; discriminate).
    destruct D as [D|D]; [exact (Q D)|]. pose proof (parse_url_sim (checking X) HL HI s base enc H1 H2 H3 H4 H5) as (_ & S2). change (m_env (checking X)) with E1 in S2. rewrite D in S2.
    unfold m_url_is_valid. cbv zeta. destruct (m_parse_url (checking X) s base enc) as [l [u|e t]]; cbn [fst snd same] in *; [contradiction|]. destruct S2 as (-> & S2). cbn [is_url_error].
    split; [cbn [snd]; eapply order_mono; [|exact O]; apply ku_parse|]. right. cbn [fst]. exists EValue. destruct S2 as [S2|(S2 & _)]; [|discriminate S2]. destruct t as [t|]; [|reflexivity]. destruct S2 as (S2 & _). discriminate S2.
  - right. unfold m_url_is_valid. cbv zeta. destruct (m_parse_url (checking X) s base enc) as [l r]. cbn [fst snd] in *. subst r. cbn [is_url_error fst snd]. now split.
Qed.
Lemma can_parse_or s base v : enc_ok E1 (normalize_encoding E1 UTF8) -> is_pystr s -> short s -> base_parsed E1 base -> (forall t, base = BStr t -> short t) ->
  in_order (call_message E1 (m_icu_code X) base UTF8 s) (snd (m_can_parse X s base v)) \/
  one_short (call_message E1 (m_icu_code X) base UTF8 s) (snd (m_can_parse X s base v)) /\ fst (m_can_parse X s base v) = MErr EValue None.
Proof.
  intros H1 H2 H3 H4 H5. unfold m_can_parse. cbv zeta. pose proof (order_or s base UTF8 (ms_start v) H1 H2 H3 H4 H5 (order_start _ v)) as O.
  destruct (m_parse_url (checking X) s base UTF8) as [l r]. cbn [fst snd] in *. destruct O as [O|(O & ->)]; [left; exact O|right; split; [exact O|reflexivity]].
Qed.
End Short.
