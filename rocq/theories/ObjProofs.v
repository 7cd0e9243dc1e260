(** Properties of URL objects: frame conditions, failing setters, invariants,
    set-get laws, equality and origins. *)
From Coq Require Import Ascii String.
From Coq Require Import NArith ZArith Bool Arith Lia ZifyBool ZifyN ZifyNat List.
From Verif Require Import PyStr PyInt Codec Env HostModel UrlRecord Parser SearchParams UrlApi SpecText SpecHost FlatParser.
From Verif Require Import Lemmas CodecProofs QuoteProofs PyIntProofs LegacyProofs IPv4Proofs IPv6Proofs HostProofs LoopProofs FlatProofs WfProofs RoundTrip LooseProofs SetterProofs ParserProofs UrlProps ParamProofs ApiProofs.
From Verif Require Import SpecApi SpecUrl.
Import ListNotations.
Open Scope N_scope.

Lemma obj_eta o : mkobj (o_url o) (o_list o) = o. Proof. now destruct o. Qed.

(* ---------- C46 ---------- *)
Lemma rstrip_other E u c : c <> CPath -> agree c u (potentially_rstrip E u).
Proof. intros H. unfold potentially_rstrip. destruct (path u), (fragment u), (query u); destruct c; try reflexivity; congruence. Qed.
Lemma rstrip_path E E0 u v : loose E u -> path v = path u -> agree CPath u (potentially_rstrip E0 v) \/ space_stripped u (potentially_rstrip E0 v).
Proof.
  intros HL P. unfold potentially_rstrip. destruct (path v) as [s|l] eqn:Q; [|left; cbn; congruence].
  destruct (fragment v) eqn:F; [left; cbn; congruence|]. destruct (query v) eqn:Y; [left; cbn; congruence|]. right.
  destruct (rstrip_split (is_py_space E0) s) as (w & S & W). exists (rstrip_by (is_py_space E0) s), w.
  assert (C : qs SAFE_C0_CONTROL s). { destruct HL as (_ & B & _). unfold loose_path in B. rewrite <- P in B. tauto. }
  repeat split; auto.
  - rewrite <- P. now rewrite S at 1.
  - apply Forall_forall. intros c Hc. rewrite Forall_forall in W. specialize (W c Hc). cbv beta in W.
    rewrite py_space_c0 in W by (apply (c0_safe_char s); auto; rewrite S, in_app_iff; now right). now apply N.eqb_eq.
  - intros q Hq. pose proof (rstrip_last _ _ _ _ Hq) as D. unfold is_py_space, is_space_ascii in D. discriminate.
Qed.
Lemma put_port_agree E u t c : c <> CPort -> agree c u (fst (put_port E u t)).
Proof. intros H. unfold put_port. destruct (flat_port E _ _); [|destruct c; reflexivity]. destruct (fst (span _ t)); destruct c; try reflexivity; congruence. Qed.
Lemma put_host_agree E so u t c : c <> CHost -> c <> CPort \/ so = HOSTNAME -> agree c u (fst (put_host E so u t)).
Proof.
  intros H1 H2. assert (R : agree c u u) by (destruct c; reflexivity). assert (S : forall h, agree c u (set_host h u)) by (intros h; destruct c; try reflexivity; congruence).
  unfold put_host, put_file_host. destruct (str_eqb (scheme u) _).
  - destruct (fst (span _ t)); [apply S|]. destruct (snd (host_parse E _ _)); [apply S|exact R].
  - destruct (host_scan _ false t) as [h r]. destruct (isc (cur r) 58).
    + destruct (length h =? 0)%nat; [exact R|]. destruct (is_hostname_override _) eqn:IH; [exact R|]. destruct (snd (host_parse E _ _)); [|exact R].
      assert (N : c <> CPort) by (destruct H2 as [H2| ->]; [auto|discriminate]).
      pose proof (put_port_agree E (set_host (Some a) u) (tl r) c N) as Q. destruct c; try exact Q; congruence.
    + destruct (_ && is_special u); [exact R|]. destruct (_ && _); [exact R|]. destruct (snd (host_parse E _ _)); [apply S|exact R].
Qed.
Lemma setter_frame E s o c : reached E o -> is_pystr (text_of s) -> ~ In c (own s) ->
  agree c (o_url o) (o_url (fst (set_attr E s o))) \/
  c = CPath /\ (exists v, s = SetHash v \/ s = SetSearch v) /\ space_stripped (o_url o) (o_url (fst (set_attr E s o))).
Proof.
  intros HR Hv HN. apply reached_inv in HR as (HL & _). assert (R : agree c (o_url o) (o_url o)) by (destruct c; reflexivity).
  destruct s as [v|v|v|v|v|v|v|v|v|v]; cbn [own In] in HN; unfold set_attr; cbv zeta.
  - destruct v as [|x v].
    + cbn [fst o_url]. pose proof (rstrip_other E (set_fragment None (o_url o)) c) as K.
      destruct c; try (left; exact (K ltac:(discriminate))); [|exfalso; apply HN; now left].
      destruct (rstrip_path (EE E) E (o_url o) (set_fragment None (o_url o)) HL eq_refl) as [Q|Q]; [now left|right]. repeat split; eauto.
    + rewrite reparse_fragment. left. destruct c; try reflexivity; exfalso; apply HN; auto.
  - left. destruct (has_opaque_path (o_url o)); [exact R|]. rewrite reparse_host. apply put_host_agree; [intros ->; tauto|left; intros ->; tauto].
  - left. destruct (has_opaque_path (o_url o)); [exact R|]. rewrite reparse_hostname. apply put_host_agree; [intros ->; tauto|now right].
  - exfalso. apply HN. destruct c; auto 10.
  - left. destruct (cannot_have_username_password_port (o_url o)); [exact R|]. destruct c; try reflexivity; exfalso; apply HN; auto.
  - left. destruct (has_opaque_path (o_url o)); [exact R|]. rewrite reparse_path. destruct c; try reflexivity; exfalso; apply HN; auto.
  - left. destruct (cannot_have_username_password_port (o_url o)); [exact R|]. destruct v as [|x v]; [destruct c; try reflexivity; exfalso; apply HN; auto|].
    rewrite reparse_port. apply put_port_agree. intros ->; tauto.
  - left. rewrite reparse_scheme. destruct (scheme_split _) as [[s t]|]; [|exact R]. destruct (scheme_blocked _ _); [exact R|].
    unfold with_url. cbn [fst o_url]. unfold put_scheme. destruct (_ && _); destruct c; try reflexivity; exfalso; apply HN; auto.
  - destruct v as [|x v].
    + cbn [fst o_url]. pose proof (rstrip_other E (set_query None (o_url o)) c) as K.
      destruct c; try (left; exact (K ltac:(discriminate))); [|exfalso; apply HN; now left].
      destruct (rstrip_path (EE E) E (o_url o) (set_query None (o_url o)) HL eq_refl) as [Q|Q]; [now left|right]. repeat split; eauto.
    + rewrite reparse_query. left. destruct c; try reflexivity; exfalso; apply HN; auto.
  - left. destruct (cannot_have_username_password_port (o_url o)); [exact R|]. destruct c; try reflexivity; exfalso; apply HN; auto.
Qed.
Lemma protocol_port E v o : let o' := fst (set_attr E (SetProtocol v) o) in
  port (o_url o') = port (o_url o) \/
  port (o_url o') = None /\ exists p, port (o_url o) = Some p /\ std_default_port (scheme (o_url o')) p.
Proof.
  cbv zeta. unfold set_attr. rewrite reparse_scheme. destruct (scheme_split _) as [[s t]|]; [|now left]. destruct (scheme_blocked _ _); [now left|].
  unfold with_url. cbn [fst o_url]. unfold put_scheme. destruct (port_truthy (port (o_url o)) && on_eqb (default_port (lower s)) (port (o_url o))) eqn:K; [|now left].
  right. split; [reflexivity|]. apply andb_true_iff in K as [K0 K]. cbn [scheme set_port set_scheme]. destruct (port (o_url o)) as [p|]; [|discriminate].
  exists p. split; [reflexivity|]. destruct (default_port (lower s)) as [d|] eqn:D; [|discriminate]. cbn [on_eqb] in K. apply N.eqb_eq in K as ->.
  unfold default_port in D. destruct (find _ SPECIAL_SCHEMES) as [x|] eqn:F; [|discriminate]. apply find_some in F as [F1 F2]. apply str_eqb_eq in F2.
  unfold std_default_port. rewrite F2, <- D. destruct x; exact F1.
Qed.
Lemma default_port_std s p : default_port s = Some p <-> std_default_port s p.
Proof.
  split; [|apply default_port_spec]. intros D. unfold default_port in D. destruct (find _ SPECIAL_SCHEMES) as [x|] eqn:F; [|discriminate]. apply find_some in F as [F1 F2]. apply str_eqb_eq in F2.
  unfold std_default_port. rewrite F2, <- D. destruct x; exact F1.
Qed.
Lemma setter_list E s o : (forall v, s <> SetSearch v /\ s <> SetHref v) -> o_list (fst (set_attr E s o)) = o_list o.
Proof.
  intros H. destruct s as [v|v|v|v|v|v|v|v|v|v]; unfold set_attr; cbv zeta; try (destruct (H v); congruence).
  - now destruct v.
  - now destruct (has_opaque_path _).
  - now destruct (has_opaque_path _).
  - now destruct (cannot_have_username_password_port _).
  - now destruct (has_opaque_path _).
  - destruct (cannot_have_username_password_port _); [reflexivity|]. now destruct v.
  - reflexivity.
  - now destruct (cannot_have_username_password_port _).
Qed.

(* ---------- C47 ---------- *)
Lemma digits_value d : forallb (fun c => mem c ASCII_DIGITS) d = true -> exists v, std_radix_value 10 d 0 = Some v.
Proof.
  intros H. apply radix10_total. rewrite <- not_true_iff_false. intros X. apply existsb_In in X as (c & Hc & X). rewrite forallb_forall in H.
  rewrite (H c Hc) in X. discriminate.
Qed.
Lemma port_bad E sch d e : forallb (fun c => mem c ASCII_DIGITS) d = true -> flat_port E sch d = Err e ->
  bad_port_text E d /\ (e = EURLParse \/ e = EValue).
Proof.
  intros F H. unfold flat_port in H. rewrite F in H. destruct d as [|c d]; [discriminate|]. destruct (digits_value _ F) as [v V].
  unfold e_int in H. rewrite (py_int_digits_eq (int_limit E) (uni_decimal E) (uni_space E) 10 (c :: d) v) in H by (auto; discriminate).
  cbn [N.eqb Pos.eqb andb] in H. destruct (match int_limit E with Some l => l <? N.of_nat (length (c :: d)) | None => false end) eqn:L.
  - injection H as <-. split; [|now right]. split; [discriminate|]. exists v. split; [exact V|right]. destruct (int_limit E) as [l|]; [|discriminate].
    exists l. split; [reflexivity|]. now apply N.ltb_lt.
  - cbv zeta in H. rewrite N2Z.id in H. destruct (65535 <? v) eqn:G; [|discriminate]. injection H as <-. split; [|now left]. split; [discriminate|].
    exists v. split; [exact V|left]. now apply N.ltb_lt.
Qed.
Lemma put_port_err E u t e : snd (put_port E u t) = Err e -> fst (put_port E u t) = u /\
  exists d r, t = d ++ r /\ bad_port_text E d /\ (forall c t', r = c :: t' -> std_digit c = false).
Proof.
  unfold put_port. pose proof (span_forallb (fun c => mem c ASCII_DIGITS) t) as F. pose proof (span_eq (fun c => mem c ASCII_DIGITS) t) as Q.
  pose proof (span_stop (fun c => mem c ASCII_DIGITS) t) as ST.
  destruct (span (fun c => mem c ASCII_DIGITS) t) as [d r]. cbn [fst snd] in *. destruct (flat_port E (scheme u) d) as [p|e'] eqn:P; [discriminate|].
  cbn [fst snd]. intros _. split; [reflexivity|]. exists d, r. split; [exact Q|]. split; [now apply (port_bad E _ d) in P|].
  intros c t' Hr. rewrite Hr in ST. destruct (std_digit c) eqn:D; [|reflexivity]. apply digit_mem in D. congruence.
Qed.
Lemma host_scan_app sp s : forall br, s = fst (host_scan sp br s) ++ snd (host_scan sp br s).
Proof.
  induction s as [|c t IH]; intros br; [reflexivity|]. cbn [host_scan]. destruct (_ || _); [reflexivity|].
  specialize (IH (if c =? 91 then true else if c =? 93 then false else br)). destruct (host_scan sp _ t) as [b r]. cbn [fst snd app] in *. now rewrite IH at 1.
Qed.
Lemma filter_all {A} (f : A -> bool) l : forallb f l = true -> filter f l = l.
Proof. induction l as [|x t IH]; [reflexivity|]. cbn [forallb filter]. intros H. apply andb_true_iff in H as [H1 H2]. now rewrite H1, IH. Qed.
Lemma strip_tabs_std v : remove_tabs v = std_strip_tabs v. Proof. reflexivity. Qed.
(** The setters other than host do nothing when they raise; host may have replaced
    the host when the port after it is refused. *)
Lemma setter_raise E s o e : snd (set_attr E s o) = Err e ->
  fst (set_attr E s o) = o \/
  exists v h a d r, s = SetHost v /\ fst (set_attr E s o) = mkobj (set_host (Some h) (o_url o)) (o_list o) /\
    std_strip_tabs v = a ++ 58 :: d ++ r /\ a <> [] /\ bad_port_text E d /\ (forall c t, r = c :: t -> std_digit c = false).
Proof.
  assert (R : mkobj (o_url o) (o_list o) = o) by apply obj_eta.
  assert (FH : forall t e, snd (put_file_host (EE E) (o_url o) t) = Err e -> fst (put_file_host (EE E) (o_url o) t) = o_url o).
  { intros t e'. unfold put_file_host. destruct (fst (span _ t)); [discriminate|]. destruct (snd (host_parse _ _ _)); [discriminate|reflexivity]. }
  assert (PH : forall so t e, snd (put_host (EE E) so (o_url o) t) = Err e -> fst (put_host (EE E) so (o_url o) t) = o_url o \/
     so <> HOSTNAME /\ exists h a d r, fst (put_host (EE E) so (o_url o) t) = set_host (Some h) (o_url o) /\ t = a ++ 58 :: d ++ r /\ a <> [] /\ bad_port_text E d /\ (forall c t, r = c :: t -> std_digit c = false)).
  { intros so t e'. unfold put_host. destruct (str_eqb (scheme (o_url o)) _); [intros H; left; now apply (FH t e')|].
    pose proof (host_scan_app (is_special (o_url o)) t false) as SA. destruct (host_scan _ false t) as [h r]. cbn [fst snd] in SA. destruct (isc (cur r) 58) eqn:I5.
    - destruct (length h =? 0)%nat eqn:L; [now left|]. destruct (is_hostname_override _) eqn:IH; [discriminate|]. destruct (snd (host_parse _ _ _)) as [x|e2]; [|now left].
      intros H. apply put_port_err in H as (H1 & d & r2 & H2 & H3 & H4). right. split; [intros ->; discriminate|]. exists x, h, d, r2.
      split; [exact H1|]. destruct r as [|c r]; [discriminate|]. cbn [cur isc] in I5. apply N.eqb_eq in I5 as ->. cbn [tl] in H2. rewrite H2 in SA.
      split; [exact SA|]. split; [intros ->; discriminate|]. split; auto.
    - destruct (_ && is_special _); [now left|]. destruct (_ && _); [discriminate|]. destruct (snd (host_parse _ _ _)); [discriminate|now left]. }
  destruct s as [v|v|v|v|v|v|v|v|v|v]; unfold set_attr; cbv zeta.
  - destruct v; [discriminate|]. rewrite reparse_fragment. discriminate.
  - destruct (has_opaque_path _); [discriminate|]. rewrite reparse_host. unfold with_url. cbn [fst snd]. intros H. apply PH in H as [H|(_ & h & a & d & r & H1 & H2)].
    + left. now rewrite H.
    + right. exists v, h, a, d, r. rewrite H1. rewrite strip_tabs_std in H2. tauto.
  - destruct (has_opaque_path _); [discriminate|]. rewrite reparse_hostname. unfold with_url. cbn [fst snd]. intros H. apply PH in H as [H|(H & _)]; [|congruence].
    left. now rewrite H.
  - destruct (snd (parse_new _ _ _ _)); [discriminate|]. now left.
  - destruct (cannot_have_username_password_port _); discriminate.
  - destruct (has_opaque_path _); [discriminate|]. rewrite reparse_path. discriminate.
  - destruct (cannot_have_username_password_port _); [discriminate|]. destruct v; [discriminate|]. rewrite reparse_port. unfold with_url. cbn [fst snd].
    intros H. apply put_port_err in H as [H _]. left. now rewrite H.
  - rewrite reparse_scheme. destruct (scheme_split _) as [[s t]|]; [destruct (scheme_blocked _ _); discriminate|]. intros _. now left.
  - destruct v; [discriminate|]. rewrite reparse_query. discriminate.
  - destruct (cannot_have_username_password_port _); discriminate.
Qed.

(* ---------- C48 - C51 ---------- *)
Lemma loose_invariant E u : loose E u -> port u <> Some 0 -> url_invariant u.
Proof.
  intros ((A1 & A2 & A3 & A4 & A5 & A6 & A7) & B & C) NP. constructor.
  - now apply scheme_ok_std.
  - intros S. apply special_spec in S. unfold wf_host, is_special in A4. destruct (uhost u); [discriminate|congruence].
  - intros S. apply special_spec in S. unfold loose_path, is_special in B. destruct (path u) as [s|l]; [destruct B as (_ & B & _); congruence|].
    destruct l as [|s l]; [|now exists s, l]. destruct B as (_ & B). specialize (B eq_refl) as [B _]. congruence.
  - intros S NF Q. apply special_spec in S. unfold wf_host, is_special in A4. rewrite Q in A4. destruct A4 as [[_ A4]|[A4 _]]; [now apply NF, A4|congruence].
  - intros s Q. unfold loose_path in B. rewrite Q in B. tauto.
  - intros H. destruct A5 as (h & H1 & H2 & H3).
    + unfold includes_credentials. destruct H as [H|[H|H]]; [left; destruct (username u); [congruence|reflexivity]|left; destruct (password u); [congruence|apply orb_true_r]|right].
      destruct (port_cases (port u)) as [Q|[Q|Q]]; congruence.
    + rewrite H1. repeat split; [discriminate|congruence|exact H3].
  - intros p Hp. now apply A6 in Hp.
Qed.
Lemma reached_invariant E o : reached E o ->
  (port (o_url o) <> Some 0 -> url_invariant (o_url o)) /\ url_invariant (set_port None (o_url o)).
Proof.
  intros H. apply reached_inv in H as (H & _). split; [now apply (loose_invariant (EE E))|].
  apply (loose_invariant (EE E)); [now apply no_port|discriminate].
Qed.
Lemma reached_sync E o : reached E o ->
  o_list o = std_urlencoded_parse (std_utf8_encode (scalar_value_string (match query (o_url o) with Some q => q | None => [] end))).
Proof.
  intros H. apply reached_inv in H as (H & _ & S). rewrite S. unfold attach_list. rewrite parse_qsl_spec. f_equal. apply utf8_encode_spec.
  destruct (query (o_url o)) as [q|] eqn:Q; [|constructor]. destruct H as (_ & _ & C & _). specialize (C q Q). apply qs_ascii in C.
  eapply Forall_impl; [|exact C]. cbv beta. intros; lia.
Qed.
Lemma reached_port E o p : reached E o -> port (o_url o) = Some p -> ~ std_default_port (scheme (o_url o)) p.
Proof.
  intros H P D. apply reached_inv in H as (((_ & _ & _ & _ & _ & A & _) & _) & _). apply default_port_spec in D. now apply A in P as [_ P].
Qed.
Lemma idna_validity E b : idna_ok E -> idna_ok (with_validity E b).
Proof. intros [A B]. constructor; [exact A|exact B]. Qed.
(** conditions that a history of setters may break *)
Lemma reached_reparse E o : limit_ok E -> idna_ok E -> reached E o -> sound_port (o_url o) -> sound_file (o_url o) -> url_v4_ok (o_url o) ->
  url_new E (get_href o) BNone = Ok o.
Proof.
  intros HL HI H SP SF V. apply reached_inv in H as (H & _ & S). unfold url_new, get_href. rewrite parse_url_none.
  rewrite (reparse_fix (EE E) (o_url o) None UTF8); [|apply enc_utf8|exact HL|now apply idna_validity|exact I|now apply loose_wf].
  rewrite fix_v4_id by exact V. rewrite <- S, obj_eta. reflexivity.
Qed.

(* ---------- C52 ---------- *)
Lemma no_authority_spec u : cannot_have_username_password_port u = true <-> std_no_authority u.
Proof.
  unfold cannot_have_username_password_port, std_no_authority. rewrite orb_true_iff, str_eqb_eq.
  destruct (uhost u) as [[[|]| |]|]; cbn [null_or_empty_host]; intuition congruence.
Qed.
Lemma opaque_spec u : has_opaque_path u = true <-> std_opaque u.
Proof. unfold has_opaque_path, std_opaque. destruct (path u) as [s|l]; split; [eauto|auto|discriminate|intros [s H]; discriminate]. Qed.
Lemma guards E o v :
  (std_opaque (o_url o) ->
   set_attr E (SetHost v) o = (o, Ok tt) /\ set_attr E (SetHostname v) o = (o, Ok tt) /\ set_attr E (SetPathname v) o = (o, Ok tt)) /\
  (std_no_authority (o_url o) ->
   set_attr E (SetUsername v) o = (o, Ok tt) /\ set_attr E (SetPassword v) o = (o, Ok tt) /\ set_attr E (SetPort v) o = (o, Ok tt)).
Proof.
  split; intros H.
  - apply opaque_spec in H. unfold set_attr. cbv zeta. rewrite H. auto.
  - apply no_authority_spec in H. unfold set_attr. cbv zeta. rewrite H. auto.
Qed.

(* ---------- C53 ---------- *)
Lemma set_get_creds E o v : ~ std_no_authority (o_url o) -> is_pystr v ->
  get_username (fst (set_attr E (SetUsername v) o)) = std_percent_encode userinfo_set false v /\
  get_password (fst (set_attr E (SetPassword v) o)) = std_percent_encode userinfo_set false v.
Proof.
  intros H Hv. assert (C : cannot_have_username_password_port (o_url o) = false).
  { destruct (cannot_have_username_password_port (o_url o)) eqn:Q; [|reflexivity]. apply no_authority_spec in Q. tauto. }
  unfold set_attr. cbv zeta. rewrite C. unfold get_username, get_password. cbn [fst o_url set_username set_password username password].
  split; apply encode_conforms; auto using agree_userinfo.
Qed.
(** one leading character [c] removed *)
Definition without_leading (c : N) (v : list N) : list N :=
  match v with x :: t => if N.eq_dec x c then t else v | [] => [] end.
Lemma strip_char_spec c v : strip_char c v = without_leading c v.
Proof. destruct v as [|x t]; [reflexivity|]. cbn. destruct (N.eq_dec x c) as [->|H]; [now rewrite N.eqb_refl|]. apply N.eqb_neq in H. now rewrite H. Qed.
Definition prefixed (c : N) (s : list N) : list N := match s with [] => [] | _ => c :: s end.
Lemma set_get_hash E o v : is_pystr v ->
  get_hash (fst (set_attr E (SetHash v) o)) = prefixed 35 (std_percent_encode fragment_set false (std_strip_tabs (without_leading 35 v))).
Proof.
  intros Hv. unfold set_attr. cbv zeta. destruct v as [|c v].
  - unfold get_hash. cbn [fst o_url]. replace (fragment (potentially_rstrip E (set_fragment None (o_url o)))) with (@None (list N)); [reflexivity|].
    exact (rstrip_other E (set_fragment None (o_url o)) CFragment ltac:(discriminate)).
  - rewrite reparse_fragment. rewrite strip_char_spec, strip_tabs_std. unfold with_url, get_hash. cbn [fst o_url fragment set_fragment].
    assert (P : is_pystr (std_strip_tabs (without_leading 35 (c :: v)))) by (rewrite <- strip_char_spec, <- strip_tabs_std; now apply remove_tabs_pystr, strip_char_pystr).
    unfold enc_fragment. rewrite (encode_conforms _ _ _ _ agree_fragment P). unfold prefixed. destruct (std_percent_encode _ _ _); reflexivity.
Qed.
Lemma set_get_search E o v : is_pystr v ->
  get_search (fst (set_attr E (SetSearch v) o)) =
  prefixed 63 (std_percent_encode (if str_in (scheme (o_url o)) (map fst std_special_schemes) then special_query_set else SpecText.query_set) false (std_strip_tabs (without_leading 63 v))).
Proof.
  intros Hv. unfold set_attr. cbv zeta. destruct v as [|c v].
  - unfold get_search. cbn [fst o_url]. rewrite rstrip_query. cbn [query set_query]. destruct (str_in _ _); reflexivity.
  - rewrite reparse_query. rewrite strip_char_spec, strip_tabs_std. unfold get_search. cbn [fst o_url query set_query].
    assert (P : is_pystr (std_strip_tabs (without_leading 63 (c :: v)))) by (rewrite <- strip_char_spec, <- strip_tabs_std; now apply remove_tabs_pystr, strip_char_pystr).
    unfold put_query, WfProofs.query_set. change (is_special (o_url o)) with (str_in (scheme (o_url o)) (map fst std_special_schemes)).
    destruct (str_in _ _).
    + rewrite (encode_conforms _ _ _ _ agree_special_query P). unfold prefixed. destruct (std_percent_encode _ _ _); reflexivity.
    + rewrite (encode_conforms _ _ _ _ agree_query P). unfold prefixed. destruct (std_percent_encode _ _ _); reflexivity.
Qed.
Lemma shortest_dec n d : shortest_in_base 10 n d -> d = dec_str n.
Proof.
  intros (ds & -> & F & S & V). destruct (dec_str_spec n) as (ds' & -> & F' & S' & V'). f_equal.
  apply (shortest_unique 10); auto; [lia|congruence].
Qed.
Lemma dec_digits n : forallb std_digit (dec_str n) = true.
Proof.
  destruct (dec_str_spec n) as (ds & -> & F & _). apply forallb_forall. intros c Hc. apply in_map_iff in Hc as (d & <- & Hd).
  rewrite Forall_forall in F. specialize (F d Hd). unfold PyIntProofs.std_digit. cbv beta in F. replace (d <? 10) with true by lia. unfold std_digit. lia.
Qed.
Lemma dec_nonempty n : dec_str n <> [].
Proof. destruct (dec_str_spec n) as (ds & -> & _ & [S _] & _). destruct ds; [congruence|discriminate]. Qed.
Lemma span_all_true p s : forallb p s = true -> span p s = (s, []).
Proof. induction s as [|c t IH]; [reflexivity|]. cbn [forallb span]. intros H. apply andb_true_iff in H as [H1 H2]. now rewrite H1, IH. Qed.
Lemma set_get_port E o n d : limit_ok E -> ~ std_no_authority (o_url o) -> n <= 65535 -> shortest_in_base 10 n d ->
  snd (set_attr E (SetPort d) o) = Ok tt /\
  (std_default_port (scheme (o_url o)) n -> get_port (fst (set_attr E (SetPort d) o)) = []) /\
  (~ std_default_port (scheme (o_url o)) n -> get_port (fst (set_attr E (SetPort d) o)) = d).
Proof.
  intros HL H Hn Hd. apply shortest_dec in Hd as ->. assert (C : cannot_have_username_password_port (o_url o) = false).
  { destruct (cannot_have_username_password_port (o_url o)) eqn:Q; [|reflexivity]. apply no_authority_spec in Q. tauto. }
  unfold set_attr. cbv zeta. rewrite C. pose proof (dec_digits n) as D. pose proof (dec_nonempty n) as NE.
  assert (T : remove_tabs (dec_str n) = dec_str n).
  { unfold remove_tabs. apply filter_all. rewrite forallb_forall in D |- *. intros c Hc. specialize (D c Hc). unfold std_digit in D. unfold is_tab_newline. lia. }
  assert (M : forallb (fun c => mem c ASCII_DIGITS) (dec_str n) = true).
  { rewrite forallb_forall in D |- *. intros c Hc. now apply digit_mem, D. }
  pose proof (e_int_dec (EE E) n HL ltac:(lia)) as EI.
  destruct (dec_str n) as [|c t] eqn:X; [congruence|]. rewrite reparse_port, T. unfold put_port. rewrite (span_all_true _ _ M). cbn [fst].
  unfold flat_port. rewrite M, EI. cbv zeta. rewrite N2Z.id. replace (65535 <? n) with false by lia. cbn [with_url fst snd o_url]. split; [reflexivity|].
  unfold with_url, get_port. cbn [fst o_url port set_port]. rewrite <- !default_port_std. split; intros Q.
  - rewrite Q. cbn [on_eqb]. now rewrite N.eqb_refl.
  - destruct (on_eqb (default_port (scheme (o_url o))) (Some n)) eqn:K; [|exact X]. exfalso. apply Q. destruct (default_port _) as [m|]; [|discriminate].
    cbn [on_eqb] in K. apply N.eqb_eq in K. now subst.
Qed.

(* ---------- C54 ---------- *)
Lemma serialize_no_fragment u : serialize_url u true = href (set_fragment None u).
Proof. unfold href, serialize_url. reflexivity. Qed.
Lemma equals_spec a b : (url_equals a b false = true <-> get_href a = get_href b) /\
  (url_equals a b true = true <-> href (set_fragment None (o_url a)) = href (set_fragment None (o_url b))).
Proof. unfold url_equals, record_equals. rewrite !str_eqb_eq, !serialize_no_fragment. split; reflexivity. Qed.
Lemma equals_equiv x : (forall a, url_equals a a x = true) /\ (forall a b, url_equals a b x = url_equals b a x) /\
  (forall a b c, url_equals a b x = true -> url_equals b c x = true -> url_equals a c x = true).
Proof.
  unfold url_equals, record_equals. repeat split.
  - intros. apply str_eqb_refl.
  - intros. apply str_eqb_sym.
  - intros a b c. rewrite !str_eqb_eq. congruence.
Qed.

(* ---------- C56 - C58 ---------- *)
Lemma network_spec s : str_in s [$"ftp"; $"http"; $"https"; $"ws"; $"wss"] = true <-> std_network_scheme s.
Proof.
  unfold str_in, std_network_scheme. rewrite existsb_exists. split.
  - intros (x & Hx & Q). apply str_eqb_eq in Q. now subst.
  - intros H. exists s. split; [exact H|apply str_eqb_refl].
Qed.
Lemma network_special s : std_network_scheme s -> std_special s.
Proof. intros H. cbn [std_network_scheme In] in H. unfold std_network_scheme in H. repeat destruct H as [<-|H]; [..|destruct H]; apply special_spec; reflexivity. Qed.
Lemma origin_network E u : std_network_scheme (scheme u) -> record_origin E u = Ok (Some (mkorigin (scheme u) (uhost u) (port u) None)).
Proof.
  intros H. assert (B : str_eqb (scheme u) $"blob" = false).
  { apply str_eqb_neq. intros Q. rewrite Q in H. vm_compute in H. intuition discriminate. }
  unfold record_origin. rewrite B. unfold tuple_origin. apply network_spec in H. now rewrite H.
Qed.
Lemma origin_other E u : ~ std_network_scheme (scheme u) -> scheme u <> $"blob" -> record_origin E u = Ok None.
Proof.
  intros H B. apply str_eqb_neq in B. unfold record_origin. rewrite B. unfold tuple_origin.
  destruct (str_in _ _) eqn:Q; [|reflexivity]. apply network_spec in Q. tauto.
Qed.
Lemma parse_nil E : snd (parse_new E [] None UTF8) = Err EURLParse.
Proof. rewrite parse_new_flat by exact I. reflexivity. Qed.
Lemma origin_blob E u : scheme u = $"blob" -> record_origin E u =
  match url_new E (serialize_path u) BNone with
  | Ok p => if str_in (scheme (o_url p)) [$"http"; $"https"]
            then Ok (Some (mkorigin (scheme (o_url p)) (uhost (o_url p)) (port (o_url p)) None)) else Ok None
  | Err e => if is_url_error e then Ok None else Err e
  end.
Proof.
  intros B. unfold record_origin, url_new. rewrite B, str_eqb_refl, parse_url_none. cbv zeta.
  assert (G : match snd (parse_new (EE E) (serialize_path u) None UTF8) with
      | Ok p => if str_in (scheme p) [$"http"; $"https"; $"file"] then Ok (tuple_origin p) else Ok None
      | Err e => if is_url_error e then Ok None else Err e
      end = match match snd (parse_new (EE E) (serialize_path u) None UTF8) with Ok u0 => Ok (mkobj u0 (attach_list u0)) | Err e => Err e end with
  | Ok p => if str_in (scheme (o_url p)) [$"http"; $"https"]
            then Ok (Some (mkorigin (scheme (o_url p)) (uhost (o_url p)) (port (o_url p)) None)) else Ok None
  | Err e => if is_url_error e then Ok None else Err e
  end).
  { destruct (snd (parse_new (EE E) (serialize_path u) None UTF8)) as [p|e]; [|reflexivity]. cbn [o_url].
    unfold tuple_origin, str_in. cbn [existsb]. destruct (str_eqb (scheme p) $"http") eqn:H1; [apply str_eqb_eq in H1; rewrite H1; reflexivity|].
    destruct (str_eqb (scheme p) $"https") eqn:H2; [apply str_eqb_eq in H2; rewrite H2; reflexivity|].
    destruct (str_eqb (scheme p) $"file") eqn:H3; [apply str_eqb_eq in H3; rewrite H3; reflexivity|]. reflexivity. }
  destruct (match path u with POpaque s => _ | PList l => _ end) eqn:NE; [exact G|]. rewrite <- G.
  assert (S : serialize_path u = []).
  { unfold serialize_path. destruct (path u) as [[|]|[|]]; [reflexivity|discriminate|reflexivity|discriminate]. }
  rewrite S, parse_nil. reflexivity.
Qed.
Lemma host_eqb_eq a b : host_eqb a b = true <-> a = b.
Proof.
  destruct a, b; cbn [host_eqb]; rewrite ?str_eqb_eq, ?N.eqb_eq; split; intros H; try discriminate; congruence.
Qed.
Lemma same_origin_spec a b : is_same_origin a b = true <-> std_same_origin a b.
Proof.
  unfold is_same_origin, std_same_origin. rewrite !andb_true_iff, str_eqb_eq.
  assert (H : ohost_eqb (og_host a) (og_host b) = true <-> og_host a = og_host b).
  { destruct (og_host a), (og_host b); cbn [ohost_eqb]; rewrite ?host_eqb_eq; split; intros; try discriminate; congruence. }
  assert (P : on_eqb (og_port a) (og_port b) = true <-> og_port a = og_port b).
  { destruct (og_port a), (og_port b); cbn [on_eqb]; rewrite ?N.eqb_eq; split; intros; try discriminate; congruence. }
  tauto.
Qed.
Lemma same_origin_equiv : (forall a, is_same_origin a a = true) /\ (forall a b, is_same_origin a b = is_same_origin b a) /\
  (forall a b c, is_same_origin a b = true -> is_same_origin b c = true -> is_same_origin a c = true).
Proof.
  repeat split.
  - intros a. apply same_origin_spec. now repeat split.
  - intros a b. apply eq_true_iff_eq. rewrite !same_origin_spec. unfold std_same_origin. intuition congruence.
  - intros a b c. rewrite !same_origin_spec. unfold std_same_origin. intuition congruence.
Qed.
Lemma reached_same_origin E o og : limit_ok E -> idna_ok E -> reached E o -> url_v4_ok (o_url o) -> record_origin E (o_url o) = Ok (Some og) ->
  exists o' og', url_new E (get_href o) BNone = Ok o' /\ record_origin E (o_url o') = Ok (Some og') /\ is_same_origin og og' = true.
Proof.
  intros HL HI HR V HO. pose proof HR as HI'. apply reached_inv in HI' as (((A1 & A2 & A3 & A4 & A5 & A6 & A7) & B & C) & _).
  exists o, og. split; [|split; [exact HO|apply same_origin_equiv]].
  assert (K : std_network_scheme (scheme (o_url o)) \/ scheme (o_url o) = $"blob").
  { destruct (str_in (scheme (o_url o)) [$"ftp"; $"http"; $"https"; $"ws"; $"wss"]) eqn:Q; [left; now apply network_spec|]. right.
    destruct (str_eqb (scheme (o_url o)) $"blob") eqn:Q2; [now apply str_eqb_eq|]. rewrite origin_other in HO; [discriminate| |now apply str_eqb_neq].
    intros K. apply network_spec in K. congruence. }
  assert (NF : scheme (o_url o) <> $"file").
  { intros Q. rewrite Q in K. destruct K as [K|K]; [vm_compute in K; intuition discriminate|discriminate]. }
  apply reached_reparse; auto; [|intros Q; congruence]. intros P0.
  destruct K as [K|K].
  - assert (SP : is_special (o_url o) = true) by (apply special_spec; now apply network_special).
    unfold wf_host in A4. rewrite SP in A4. destruct (uhost (o_url o)) as [h|]; [|discriminate]. exists h. repeat split; auto.
    destruct A4 as [[_ A4]|[A4 _]]; [|exact A4]. specialize (A4 eq_refl). congruence.
  - (* a blob URL with an origin has an opaque path, hence no host and no port *)
    exfalso. destruct (path (o_url o)) as [s|l] eqn:PA.
    + unfold loose_path in B. rewrite PA in B. destruct B as (B & _). apply A7; [congruence|exact B].
    + rewrite origin_blob in HO by exact K. unfold serialize_path in HO. rewrite PA in HO. unfold url_new in HO. rewrite parse_url_none in HO.
      assert (Z : snd (parse_new (EE E) (serialize_segs l) None UTF8) = Err EURLParse).
      { rewrite parse_new_flat by exact I. unfold flat_parse, flat_main. destruct l as [|s l]; [reflexivity|].
        assert (SS : scheme_split (clean (serialize_segs (s :: l))) = None).
        { assert (exists t, clean (serialize_segs (s :: l)) = 47 :: t) as [t ->]; [|reflexivity].
          unfold clean. change (serialize_segs (s :: l)) with (47 :: s ++ serialize_segs l).
          assert (ST : exists t, strip_c0 (47 :: s ++ serialize_segs l) = 47 :: t).
          { unfold strip_c0. cbn [drop_while]. change (is_c0_space 47) with false. cbv iota.
            destruct (rstrip_split is_c0_space (47 :: s ++ serialize_segs l)) as (w & W1 & W2).
            destruct (rstrip_by is_c0_space (47 :: s ++ serialize_segs l)) as [|c t]; [|exists t; cbn [app] in W1; now apply cons_eq in W1 as [<- _]].
            cbn [app] in W1. rewrite <- W1 in W2. inversion W2 as [|? ? X]. discriminate. }
          destruct ST as [t ->]. exists (remove_tabs t). reflexivity. }
        rewrite SS. reflexivity. }
      rewrite Z in HO. discriminate.
Qed.
Lemma origin_domain_spec a b : og_domain a <> Some [] -> (is_same_origin_domain a b = true <-> std_same_origin_domain a b).
Proof.
  intros NE. unfold is_same_origin_domain, std_same_origin_domain. rewrite orb_true_iff, !andb_true_iff, str_eqb_eq, same_origin_spec.
  assert (D : ostr_eqb (og_domain a) (og_domain b) = true <-> og_domain a = og_domain b).
  { destruct (og_domain a), (og_domain b); cbn [ostr_eqb]; rewrite ?str_eqb_eq; split; intros; try discriminate; congruence. }
  rewrite D. destruct (og_domain a) as [[|c t]|] eqn:Da, (og_domain b) eqn:Db; intuition congruence.
Qed.
Lemma origin_domain_sym a b : is_same_origin_domain a b = is_same_origin_domain b a.
Proof.
  unfold is_same_origin_domain. destruct same_origin_equiv as (_ & Sy & _). rewrite (Sy a b), (str_eqb_sym (og_scheme a)).
  destruct (og_domain a) as [[|x a']|], (og_domain b) as [[|y b']|]; cbn [ostr_eqb]; try (rewrite ?andb_false_r; reflexivity).
  all: rewrite ?andb_false_r, ?andb_true_r, ?orb_false_r.
  all: try (rewrite (str_eqb_sym (x :: a'))); reflexivity.
Qed.
