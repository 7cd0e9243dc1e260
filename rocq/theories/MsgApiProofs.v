(** Proofs about MsgApi.v *)
From Coq Require Import Ascii String.
From Coq Require Import NArith ZArith Bool Arith Lia ZifyBool ZifyN ZifyNat List.
From Verif Require Import PyStr PyInt Codec Env HostModel UrlRecord Parser SearchParams UrlApi Repr Idna Message MsgHost MsgParser MsgValidators MsgApi SpecText SpecHost.
From Verif Require Import Lemmas CodecProofs IPv4Proofs FlatParser HostProofs WfProofs RoundTrip UrlProps ApiProofs ValidityProofs ReprProofs IntGrammar HostReportProofs ObjProofs MsgProofs MsgHostProofs MsgParserProofs MsgCallProofs MsgValidatorProofs.
From Verif Require StandardProofs.
From Verif Require Import SpecPyInt SpecUrl SpecParser SpecReports SpecRepr SpecIdna SpecMessages SpecValidity SpecSetText.
Import ListNotations.
Open Scope N_scope.

(** which errors an action logs *)
Section Logs.
Context (L : verr -> Prop).
Definition wl {A} (m : W A) : Prop := Forall L (fst m).
Definition lm {A} (R : A -> Prop) (m : M A) : Prop := forall u, Forall L (fst (m u)) /\ forall a, snd (snd (m u)) = Ok a -> R a.
Lemma wl_bind {A B} (m : W A) (f : A -> W B) : wl m -> (forall a, wl (f a)) -> wl (wbind m f).
Proof.
  unfold wl, wbind. destruct m as [l [a|e]]; cbn [fst]; intros H K; [|exact H]. specialize (K a). destruct (f a) as [l' r]. cbn [fst] in *. apply Forall_app. now split.
Qed.
Lemma lm_quiet {A} (R : A -> Prop) m : quiet m -> (forall a, R a) -> lm R m.
Proof. intros H K u. destruct (H u) as (H1 & _). rewrite H1. split; [constructor|]. intros a _. apply K. Qed.
Lemma lm_ret {A} (R : A -> Prop) a : R a -> lm R (ret a).
Proof. intros H u. split; [constructor|]. intros b [= <-]. exact H. Qed.
Lemma lm_raise {A} (R : A -> Prop) e : lm R (raise e).
Proof. intros u. split; [constructor|]. discriminate. Qed.
Lemma lm_log v : L v -> lm (fun _ => True) (logm v).
Proof. intros H u. split; [repeat constructor; exact H|trivial]. Qed.
Lemma lm_fail {A} (R : A -> Prop) v e : L v -> lm R (fail v e).
Proof. intros H u. split; [repeat constructor; exact H|discriminate]. Qed.
Lemma lm_bind {A B} (Q : A -> Prop) (R : B -> Prop) m f : lm Q m -> (forall a, Q a -> lm R (f a)) -> lm R (bind m f).
Proof.
  intros H K u. unfold bind. destruct (H u) as (H1 & H2). destruct (m u) as [l [u' [a|e]]]; cbn [fst snd] in *; [|split; [exact H1|discriminate]].
  destruct (K a (H2 a eq_refl) u') as (K1 & K2). destruct (f a u') as [l' [u'' r]]. cbn [fst snd] in *. split; [apply Forall_app; now split|exact K2].
Qed.
Lemma lm_then {B} (R : B -> Prop) (m : M unit) f : lm (fun _ => True) m -> lm R f -> lm R (m ;; f).
Proof. intros H K. apply (lm_bind (fun _ => True)); [exact H|]. intros _ _. exact K. Qed.
Lemma lm_when b m : (b = true -> lm (fun _ => True) m) -> lm (fun _ => True) (when b m).
Proof. intros H. destruct b; [now apply H|now apply lm_ret]. Qed.
Lemma lm_get {B} (R : B -> Prop) f : (forall u, lm R (f u)) -> lm R (u <- get ;; f u).
Proof. intros H. apply (lm_bind (fun _ => True)); [|intros a _; apply H]. intros u. split; [constructor|trivial]. Qed.
Lemma lm_lift {A} (m : W A) : wl m -> lm (fun _ => True) (lift m).
Proof. intros H u. unfold lift. destruct m as [l r]. split; [exact H|trivial]. Qed.
Lemma lm_mod f : lm (fun _ => True) (modify f).
Proof. apply lm_quiet; [apply q_set|trivial]. Qed.
End Logs.

(** the host parser *)
Section HostLog.
Context (E : env) (HV : has_validity E = false).
Local Notation wl := (wl host_error).
Local Ltac he := unfold host_error; cbn [In]; tauto.
Lemma wl_fail {A} v e : host_error v -> wl (@wfail A v e). Proof. intros H. constructor; [exact H|constructor]. Qed.
Lemma wl_ret {A} (a : A) : wl (wret a). Proof. constructor. Qed.
Lemma wl_log v : host_error v -> wl (wlog v). Proof. intros H. constructor; [exact H|constructor]. Qed.
Lemma wl_raise {A} e : wl (@wraise A e). Proof. constructor. Qed.
Lemma wl_opt {A} e (o : option A) : wl (of_opt e o). Proof. destruct o; constructor. Qed.
Ltac wl1 := first
  [ apply wl_ret | apply wl_raise | apply wl_opt | (apply wl_fail; he) | (apply wl_log; he)
  | (apply wl_bind; [|intros]) | progress cbv zeta
  | match goal with |- wl (if ?b then _ else _) => destruct b | |- wl (match ?x with _ => _ end) => destruct x end ].
Ltac wls := repeat wl1.
Lemma wl_numbers parts : wl (ipv4_numbers E parts).
Proof. induction parts as [|p t IH]; cbn [ipv4_numbers]; [apply wl_ret|]. destruct (fst (parse_ipv4_number E p) <? 0)%Z; [apply wl_fail; he|]. apply wl_bind; [wls|]. intros _. apply wl_bind; [exact IH|]. intros a. apply wl_ret. Qed.
Lemma wl_v4 a : wl (ipv4_parse E a).
Proof. unfold ipv4_parse. rewrite HV. cbn [andb]. apply wl_bind; [wls|]. intros _. destruct (4 <? _)%nat; [apply wl_fail; he|]. apply wl_bind; [apply wl_numbers|]. intros ns. wls. Qed.
Lemma wl_ascii s d : wl (domain_to_ascii E s d).
Proof. unfold domain_to_ascii. wls. Qed.
Lemma wl_v6 a : wl (ipv6_parse E a).
Proof.
  assert (P : forall c st, wl (ipv6_piece E c st)) by (intros c st; unfold ipv6_piece; wls).
  assert (S' : forall c st, wl (ipv6_sep E c st)) by (intros c st; unfold ipv6_sep; wls; apply P).
  assert (Lp : forall r st, wl (ipv6_loop E r st)) by (induction r as [|c t IH]; intros st; cbn [ipv6_loop]; wls; first [apply S'|apply IH]).
  unfold ipv6_parse. wls. apply Lp.
Qed.
Lemma wl_host h ns : wl (host_parse E h ns).
Proof. unfold host_parse, parse_opaque_host. repeat first [apply wl_v6|apply wl_ascii|apply wl_v4|wl1]. Qed.

Context (so : pstate).
Local Notation SO := (Some so).
Local Ltac lm1 := first
  [ (apply lm_quiet; [first [apply q_append | apply q_shorten | apply q_fragment | apply q_extend | apply q_flush | apply q_query] | trivial])
  | apply lm_then | (apply lm_get; intros ?u) | apply lm_mod | apply lm_raise | (apply lm_when; intros _)
  | (apply lm_lift; apply wl_host)
  | progress cbv zeta ].
Local Ltac lms := repeat lm1.
Lemma lm_weak {A} (L L' : verr -> Prop) (R R' : A -> Prop) m : (forall v, L v -> L' v) -> (forall a, R a -> R' a) -> lm L R m -> lm L' R' m.
Proof. intros H K G u. destruct (G u) as (G1 & G2). split; [revert G1; apply Forall_impl; exact H|]. intros a T. apply K, G2, T. Qed.
(** what the states do when there is a state override *)
Definition goes (l : list pstate) (r : pstate * nat) : Prop := In (fst r) l.
Local Ltac goes := unfold goes; cbn [fst In]; tauto.
Lemma lm_unit (L : verr -> Prop) c t : L VInvalidURLUnit -> lm L (fun _ => True) (check_unit c t).
Proof. intros H. unfold check_unit. lms; now apply lm_log. Qed.
Local Ltac lmu := repeat first [(apply lm_unit; assumption) | (apply lm_log; assumption) | lm1].
Lemma lm_fragment (L : verr -> Prop) r : L VInvalidURLUnit -> lm L (goes [EOF]) (parse_fragment r).
Proof.
  intros H. unfold parse_fragment. generalize 0%nat ([] : str). induction r as [|c t IH]; intros i b; cbn [fragment_loop]; lmu; [apply lm_ret; goes|apply IH].
Qed.
Lemma lm_query (L : verr -> Prop) e r : L VInvalidURLUnit -> lm L (goes [FRAGMENT]) (parse_query E r SO e).
Proof.
  intros H. unfold parse_query. generalize 0%nat ([] : str). induction r as [|c t IH]; intros i b; cbn [query_loop overridden negb andb]; lmu; [apply lm_ret; goes|apply IH].
Qed.
Lemma lm_opaque (L : verr -> Prop) r : L VInvalidURLUnit -> lm L (goes [EOF; QUERY; FRAGMENT]) (parse_opaque_path r).
Proof.
  intros H. unfold parse_opaque_path. generalize 0%nat. induction r as [|c t IH]; intros i; cbn [opaque_path_loop]; [apply lm_ret; goes|].
  destruct (c =? 63); [lmu; apply lm_ret; goes|]. destruct (c =? 35); [lmu; apply lm_ret; goes|]. lmu. apply IH.
Qed.
Lemma lm_path (L : verr -> Prop) r : L VInvalidURLUnit -> L VInvalidReverseSolidus -> lm L (goes [OPAQUE_PATH; QUERY; FRAGMENT]) (parse_path r SO).
Proof.
  intros H H'. unfold parse_path. generalize 0%nat ([] : str). induction r as [|c t IH]; intros i b; cbn [path_loop]; lmu; [apply lm_ret; goes|].
  destruct (_ || _); lmu; [|apply IH].
  destruct (c =? 63); [lmu; apply lm_ret; goes|]. destruct (c =? 35); [lmu; apply lm_ret; goes|]. apply IH.
Qed.
Lemma lm_path_start (L : verr -> Prop) r : L VInvalidReverseSolidus -> lm L (goes [PATH; EOF]) (parse_path_start r SO).
Proof.
  intros H. unfold parse_path_start. cbn [overridden negb andb]. lmu. destruct (is_special u); [lmu; apply lm_ret; goes|]. destruct (negb _); [apply lm_ret; goes|]. lmu. apply lm_ret; goes.
Qed.
Lemma lm_port (L : verr -> Prop) r : L VPortOutOfRange -> lm L (goes [EOF]) (parse_port E r SO).
Proof.
  intros H.
  assert (G : forall i b, lm L (goes [EOF]) (port_end E SO i b)).
  { intros i b. unfold port_end. cbn [overridden]. lmu; [|apply lm_ret; goes]. destruct b; [now apply lm_ret|]. destruct (e_int E _ 10); [|apply lm_raise]. lmu. destruct (65535 <? _); [now apply lm_fail|]. lmu. destruct (on_eqb _ _); lmu. }
  unfold parse_port. generalize 0%nat ([] : str). induction r as [|c t IH]; intros i b; cbn [port_loop]; [apply G|]. destruct (mem c ASCII_DIGITS); [apply IH|]. lmu. cbn [overridden]. rewrite orb_true_r. apply G.
Qed.
Lemma lm_host_lift (L : verr -> Prop) h ns : (forall v, host_error v -> L v) -> lm L (fun _ => True) (lift (host_parse E h ns)).
Proof. intros H. eapply lm_weak; [exact H| |apply lm_lift, wl_host]. trivial. Qed.
Lemma lm_file_host (L : verr -> Prop) r : (forall v, host_error v -> L v) -> lm L (goes [EOF]) (parse_file_host E r SO).
Proof.
  intros H. assert (G : forall i b, lm L (goes [EOF]) (file_host_end E SO i b)).
  { intros i b. unfold file_host_end. cbn [overridden negb andb]. destruct b; lmu; [apply lm_ret; goes|]. eapply lm_bind; [apply lm_host_lift; exact H|]. intros h _. lmu. apply lm_ret; goes. }
  unfold parse_file_host. generalize 0%nat ([] : str). induction r as [|c t IH]; intros i b; cbn [file_host_loop]; [apply G|]. destruct (mem c _); [apply G|apply IH].
Qed.
Lemma lm_host (L : verr -> Prop) r : (forall v, host_error v -> L v) -> L VHostMissing -> lm L (goes (EOF :: FILE_HOST :: if is_hostname_override SO then [] else [PORT])) (parse_host E r SO).
Proof.
  intros H H'. assert (G : forall i b, lm L (goes (EOF :: FILE_HOST :: if is_hostname_override SO then [] else [PORT])) (host_end E SO i b)).
  { intros i b. unfold host_end. lmu. destruct (is_special u && _); [now apply lm_fail|]. destruct (_ && _); [apply lm_ret; goes|]. eapply lm_bind; [apply lm_host_lift; exact H|]. intros h _. lmu. cbn [overridden]. apply lm_ret; goes. }
  unfold parse_host. lmu. destruct (overridden SO && _); [apply lm_ret; goes|]. generalize 0%nat ([] : str) false. induction r as [|c t IH]; intros i b br; cbn [host_loop]; [apply G|]. lmu.
  destruct ((c =? 58) && _).
  - destruct (length b =? 0)%nat; [now apply lm_fail|]. destruct (is_hostname_override SO); [apply lm_ret; goes|]. eapply lm_bind; [apply lm_host_lift; exact H|]. intros h _. lmu. apply lm_ret; goes.
  - destruct (_ || _); [apply G|apply IH].
Qed.
Lemma lm_scheme (L : verr -> Prop) base r : lm L (goes [EOF]) (parse_scheme r base SO).
Proof.
  unfold parse_scheme. destruct r as [|c t]; cbn [overridden]; [apply lm_raise|]. destruct (mem c ASCII_ALPHA); [|apply lm_raise]. generalize 1%nat [c]. induction t as [|d t IH]; intros i b; cbn [scheme_loop overridden]; [apply lm_raise|].
  destruct (_ || _); [apply IH|]. destruct (d =? 58); [|apply lm_raise]. unfold scheme_colon. lmu. destruct (overridden SO && _); [apply lm_ret; goes|]. cbn [overridden]. lmu. apply lm_ret; goes.
Qed.
(** a set of states that is not left *)
Lemma lm_run (L : verr -> Prop) (T : list pstate) base e : (forall st r, In st T -> st <> EOF -> lm L (goes (EOF :: T)) (step E base e SO st r)) ->
  forall fuel st r, In st T -> lm L (fun _ => True) (run_fsm fuel E base e SO st r).
Proof.
  intros H fuel. assert (G : forall st r, st = EOF \/ In st T -> lm L (fun _ => True) (run_fsm fuel E base e SO st r)); [|intros st r K; apply G; now right].
  induction fuel as [|f IH]; intros st r K; [destruct st; cbn [run_fsm]; try apply lm_raise; now apply lm_ret|].
  assert (D : {st = EOF} + {st <> EOF}) by (destruct st; (now left) || (right; discriminate)). destruct D as [->|D]; [now apply lm_ret|].
  destruct K as [K|K]; [contradiction|]. replace (run_fsm (S f) E base e SO st r) with (bind (step E base e SO st r) (fun x => run_fsm f E base e SO (fst x) (skipn (snd x) r))) by (destruct st; try reflexivity; contradiction).
  eapply lm_bind; [apply H; assumption|]. intros a Ha. apply IH. unfold goes in Ha. cbn [In] in Ha. destruct Ha as [Ha|Ha]; [left; now symmetry|now right].
Qed.
Lemma lm_into (L : verr -> Prop) (T : list pstate) s : L VInvalidURLUnit -> In so T ->
  (forall e st r, In st T -> st <> EOF -> lm L (goes (EOF :: T)) (step E None e SO st r)) -> lm L (fun _ => True) (parse_into E s None UTF8 SO).
Proof. intros H K G. unfold parse_into. apply lm_then; [apply lm_when; intros _; now apply lm_log|]. eapply lm_run; [apply G|exact K]. Qed.
End HostLog.

(** the messages do not depend on whether there is a ValidityState *)
Lemma host_message_env E b code h v bits : host_message (with_validity E b) code h v bits -> host_message E code h v bits.
Proof. intros H. destruct H; [eapply mh_open|eapply mh_v6|eapply mh_forbidden|eapply mh_unit|eapply mh_percent|eapply mh_icu|eapply mh_idna|eapply mh_empty|eapply mh_domain|eapply mh_v4]; eassumption. Qed.
Lemma url_message_env E b code base src v bits : url_message (with_validity E b) code base src v bits -> url_message E code base src v bits.
Proof.
  intros H. destruct H; [eapply mu_unit|eapply mu_percent|eapply mu_at|eapply mu_at_end|eapply mu_backslash|eapply mu_drive|eapply mu_drive_host|eapply mu_no_host|eapply mu_no_host_port|eapply mu_scheme|eapply mu_port_range|eapply mu_port|eapply mu_solidus|eapply mu_solidi|eapply mu_host]; try eassumption.
  eapply host_message_env; eassumption.
Qed.
Lemma input_message_env E b code base s v bits : input_message (with_validity E b) code base s v bits -> input_message E code base s v bits.
Proof. intros H. destruct H; [eapply mi_strip|eapply mi_tabs|eapply mi_url]; try eassumption. eapply url_message_env; eassumption. Qed.

Lemma F2_Forall {A B} (R : A -> B -> Prop) (L : B -> Prop) l l' : Forall2 R l l' -> Forall L l' -> Forall (fun a => exists b, L b /\ R a b) l.
Proof. intros H. induction H; intros K; constructor; inversion K; subst; [eexists; split; eassumption|auto]. Qed.

Section Set_.
Context (X : menv).
Local Notation E := (m_env X).
Local Notation EF := (with_validity (m_env X) false).
Local Notation code := (m_icu_code X).
Context (HL : limit_ok E) (HID : idna_ok E).
Definition text_ok (s : setter) : Prop := forall x, set_text s x \/ s = SetHref x -> is_pystr x /\ short x.
Definition matches (s : setter) (o : urlobj) : Prop :=
  Forall (set_entry E code s) (fst (m_set_attr X s o)) /\ fst (snd (m_set_attr X s o)) = fst (set_attr E s o) /\
  match snd (snd (m_set_attr X s o)), snd (set_attr E s o) with
  | MOk _, Ok _ => True
  | MErr e t, Err e' => e = e' /\ set_blames E code s (fst (m_set_attr X s o)) e t
  | _, _ => False
  end.
Definition rematches (s : setter) (x : list N) (so : pstate) (u : urlrec) : Prop :=
  Forall (set_entry E code s) (fst (m_reparse X x so u)) /\ fst (snd (m_reparse X x so u)) = fst (reparse E x so u) /\
  match snd (snd (m_reparse X x so u)), snd (reparse E x so u) with
  | MOk _, Ok _ => True
  | MErr e t, Err e' => e = e' /\ set_blames E code s (fst (m_reparse X x so u)) e t
  | _, _ => False
  end.
Lemma reparse_matches s x so u : text_ok s -> set_text s x -> so <> SPECIAL_AUTHORITY_SLASHES -> so <> SPECIAL_RELATIVE_OR_AUTHORITY ->
  (so = SCHEME_START -> exists v, s = SetProtocol v /\ x = v ++ [58]) -> lm (may_log s) (fun _ => True) (parse_into EF x None UTF8 (Some so)) -> rematches s x so u.
Proof.
  intros TO TX N1 N2 NS LM. destruct (TO x (or_introl TX)) as (HS & SH).
  assert (SIM := parse_into_sim (unchecked X) HL (idna_validity E false HID) None x UTF8 (Some so)).
  specialize (SIM ltac:(discriminate) HS SH ltac:(intros [K|K]; injection K as K; contradiction)). specialize (SIM u). specialize (LM u). destruct LM as (LM & _). unfold rematches, m_reparse, reparse, run.
  change (m_env (unchecked X)) with EF in SIM. change (m_icu_code (unchecked X)) with code in SIM. change (has_validity EF) with false in SIM.
  destruct (m_parse_into (unchecked X) x None UTF8 (Some so) u) as [l [u' r]]. destruct (parse_into EF x None UTF8 (Some so) u) as [l' [u'' r']]. cbn [fst snd] in *. destruct SIM as (S1 & <- & S2).
  split; [|split; [reflexivity|]].
  - pose proof (F2_Forall _ _ _ _ S1 LM) as G. revert G. apply Forall_impl. intros en (v & K & T). exists v. split; [exact K|]. revert T. apply tells_mono.
    + intros w bits [(-> & (c & C1 & C2) & ->)|M]; [eapply sm_tabs; eassumption|]. eapply sm_part; [exact TX|]. eapply url_message_env. exact M.
    + intros w (K1 & K2). split; [right; exists x; split; [exact TX|exact K1]|exact K2].
  - destruct r as [a|e t], r' as [a'|e']; cbn [same] in S2; try contradiction; [exact I|]. destruct S2 as (-> & S2). split; [reflexivity|]. destruct S2 as [S2|S2].
    + left. unfold blames in *. destruct t as [t|]; [|exact S2]. destruct S2 as (S2 & l0 & v & bits & m & K & M & S3). split; [exact S2|]. exists l0, v, bits, m. split; [exact K|]. split; [|exact S3].
      destruct M as [(-> & (c & C1 & C2) & ->)|M]; [eapply sm_tabs; eassumption|]. eapply sm_part; [exact TX|]. eapply url_message_env. exact M.
    + right. destruct S2 as (K1 & t' & bits & K2 & (K3 & K4) & K5). injection K3 as K3. destruct (NS K3) as (v & -> & ->). exists v, t', bits. repeat split; assumption.
Qed.
Lemma with_matches s o x so u : rematches s x so u -> m_set_attr X s o = m_with_url o (m_reparse X x so u) -> set_attr E s o = with_url o (reparse E x so u) -> matches s o.
Proof.
  intros (H1 & H2 & H3) K1 K2. unfold matches. rewrite K1, K2. unfold m_with_url, with_url. cbn [fst snd]. split; [exact H1|]. split; [now rewrite H2|exact H3].
Qed.
Local Ltac steps := intros ?e ?st ?r ?K ?K'; cbn [In] in K; repeat destruct K as [<-|K]; try contradiction; try (exfalso; exact K); cbn [step].
Lemma lm_goes (L : verr -> Prop) l l' (m : M (pstate * nat)) : lm L (goes l) m -> incl l l' -> lm L (goes l') m.
Proof. intros H K. eapply lm_weak; [| |exact H]; [auto|]. intros a. apply K. Qed.
Local Ltac wider t := eapply lm_goes; [apply t; first [assumption|reflexivity]|intros ?p; cbn [In is_hostname_override]; intuition congruence].
Lemma ml_fragment s x : may_log s VInvalidURLUnit -> lm (may_log s) (fun _ => True) (parse_into EF x None UTF8 (Some FRAGMENT)).
Proof. intros H. apply (lm_into EF FRAGMENT _ [FRAGMENT]); [exact H|now left|]. steps. wider lm_fragment. Qed.
Lemma ml_query s x : may_log s VInvalidURLUnit -> lm (may_log s) (fun _ => True) (parse_into EF x None UTF8 (Some QUERY)).
Proof. intros H. apply (lm_into EF QUERY _ [QUERY; FRAGMENT]); [exact H|now left|]. steps; [wider lm_query|wider lm_fragment]. Qed.
Lemma ml_path s x : may_log s VInvalidURLUnit -> may_log s VInvalidReverseSolidus -> lm (may_log s) (fun _ => True) (parse_into EF x None UTF8 (Some PATH_START)).
Proof.
  intros H H'. apply (lm_into EF PATH_START _ [PATH_START; PATH; OPAQUE_PATH; QUERY; FRAGMENT]); [exact H|now left|]. steps; [wider lm_path_start|wider lm_path|wider lm_opaque|wider lm_query|wider lm_fragment].
Qed.
Lemma ml_port s x : may_log s VInvalidURLUnit -> may_log s VPortOutOfRange -> lm (may_log s) (fun _ => True) (parse_into EF x None UTF8 (Some PORT)).
Proof. intros H H'. apply (lm_into EF PORT _ [PORT]); [exact H|now left|]. steps. wider lm_port. Qed.
Lemma ml_scheme s x : may_log s VInvalidURLUnit -> lm (may_log s) (fun _ => True) (parse_into EF x None UTF8 (Some SCHEME_START)).
Proof. intros H. apply (lm_into EF SCHEME_START _ [SCHEME_START]); [exact H|now left|]. steps. wider lm_scheme. Qed.
Lemma ml_host s x : (forall v, host_error v -> may_log s v) -> may_log s VHostMissing -> may_log s VPortOutOfRange -> lm (may_log s) (fun _ => True) (parse_into EF x None UTF8 (Some HOST)).
Proof.
  intros H H' H''. apply (lm_into EF HOST _ [HOST; FILE_HOST; PORT]); [apply H; unfold host_error; cbn [In]; tauto|now left|]. steps; [wider lm_host|wider lm_file_host|wider lm_port].
Qed.
Lemma ml_hostname s x : (forall v, host_error v -> may_log s v) -> may_log s VHostMissing -> lm (may_log s) (fun _ => True) (parse_into EF x None UTF8 (Some HOSTNAME)).
Proof.
  intros H H'. apply (lm_into EF HOSTNAME _ [HOSTNAME; FILE_HOST]); [apply H; unfold host_error; cbn [In]; tauto|now left|]. steps; [wider lm_host|wider lm_file_host].
Qed.
Lemma silent_matches s o : fst (m_set_attr X s o) = [] -> fst (snd (m_set_attr X s o)) = fst (set_attr E s o) -> snd (snd (m_set_attr X s o)) = MOk tt -> snd (set_attr E s o) = Ok tt -> matches s o.
Proof. intros H1 H2 H3 H4. unfold matches. rewrite H1, H3, H4. split; [constructor|]. split; [exact H2|exact I]. Qed.
Lemma set_matches s o : text_ok s -> matches s o.
Proof.
  intros TO. assert (URU : host_error VInvalidURLUnit) by (unfold host_error; cbn [In]; tauto). destruct s as [v|v|v|v|v|v|v|v|v|v].
  - destruct v as [|c v]; [now apply silent_matches|]. eapply with_matches with (x := strip_char 35 (c :: v)) (so := FRAGMENT) (u := set_fragment (Some []) (o_url o)); [|reflexivity|reflexivity].
    apply reparse_matches; [exact TO| |discriminate|discriminate|discriminate|now apply ml_fragment]. cbn [strip_char]. destruct (c =? 35) eqn:C; [apply N.eqb_eq in C; subst c; apply st_hash_sign|]. apply N.eqb_neq in C. apply st_hash; [discriminate|]. cbn [hd_error]. congruence.
  - destruct (has_opaque_path (o_url o)) eqn:OP; [apply silent_matches; unfold m_set_attr, set_attr; rewrite OP; reflexivity|].
    eapply with_matches with (x := v) (so := HOST) (u := o_url o); [|unfold m_set_attr; rewrite OP; reflexivity|unfold set_attr; rewrite OP; reflexivity].
    apply reparse_matches; [exact TO|apply st_host|discriminate|discriminate|discriminate|apply ml_host; cbn [may_log]; auto].
  - destruct (has_opaque_path (o_url o)) eqn:OP; [apply silent_matches; unfold m_set_attr, set_attr; rewrite OP; reflexivity|].
    eapply with_matches with (x := v) (so := HOSTNAME) (u := o_url o); [|unfold m_set_attr; rewrite OP; reflexivity|unfold set_attr; rewrite OP; reflexivity].
    apply reparse_matches; [exact TO|apply st_hostname|discriminate|discriminate|discriminate|apply ml_hostname; cbn [may_log]; auto].
  - destruct (TO v (or_intror eq_refl)) as (HS & SH). pose proof (parse_new_sim (unchecked X) HL (idna_validity E false HID) None v UTF8 ltac:(discriminate) HS SH) as SIM.
    change (m_env (unchecked X)) with EF in SIM. change (m_icu_code (unchecked X)) with code in SIM. change (has_validity EF) with false in SIM. unfold matches, m_set_attr, set_attr.
    destruct (m_parse_new (unchecked X) v None UTF8) as [l r]. destruct (parse_new EF v None UTF8) as [l' r']. unfold wsim in SIM. cbn [fst snd] in *. destruct SIM as (S1 & S2).
    assert (G : Forall (set_entry E code (SetHref v)) l).
    { clear S2. induction S1 as [|en w l l' T K IH]; constructor; [|exact IH]. exists w. split; [exact I|]. revert T. apply tells_mono.
      - intros w' bits M. eapply sm_href; [reflexivity|]. eapply input_message_env. exact M.
      - intros w' (K1 & K2). split; [left; exists v; split; [reflexivity|exact K1]|exact K2]. }
    destruct r as [a|e t], r' as [a'|e']; cbn [same] in S2; try contradiction.
    + subst a'. split; [exact G|]. split; [reflexivity|exact I].
    + destruct S2 as (-> & S2). split; [exact G|]. split; [reflexivity|]. cbn [snd]. split; [reflexivity|]. left. destruct S2 as [S2|S2]; [|destruct S2 as (_ & x & bits & _ & K & _); contradiction K].
      unfold blames in *. destruct t as [t|]; [|exact S2]. destruct S2 as (S2 & l0 & w & bits & m & K & M & S3). split; [exact S2|]. exists l0, w, bits, m. split; [exact K|]. split; [|exact S3]. eapply sm_href; [reflexivity|]. eapply input_message_env. exact M.
  - destruct (cannot_have_username_password_port (o_url o)) eqn:OP; apply silent_matches; unfold m_set_attr, set_attr; rewrite OP; reflexivity.
  - destruct (has_opaque_path (o_url o)) eqn:OP; [apply silent_matches; unfold m_set_attr, set_attr; rewrite OP; reflexivity|].
    eapply with_matches with (x := v) (so := PATH_START) (u := set_path (PList []) (o_url o)); [|unfold m_set_attr; rewrite OP; reflexivity|unfold set_attr; rewrite OP; reflexivity].
    apply reparse_matches; [exact TO|apply st_pathname|discriminate|discriminate|discriminate|apply ml_path; cbn [may_log]; auto].
  - destruct (cannot_have_username_password_port (o_url o)) eqn:OP; [apply silent_matches; unfold m_set_attr, set_attr; rewrite OP; reflexivity|].
    destruct v as [|c v]; [apply silent_matches; unfold m_set_attr, set_attr; rewrite OP; reflexivity|].
    eapply with_matches with (x := c :: v) (so := PORT) (u := o_url o); [|unfold m_set_attr; rewrite OP; reflexivity|unfold set_attr; rewrite OP; reflexivity].
    apply reparse_matches; [exact TO|apply st_port; discriminate|discriminate|discriminate|discriminate|apply ml_port; cbn [may_log]; auto].
  - eapply with_matches with (x := v ++ [58]) (so := SCHEME_START) (u := o_url o); [|reflexivity|reflexivity].
    apply reparse_matches; [exact TO|apply st_protocol|discriminate|discriminate|intros _; exists v; split; reflexivity|now apply ml_scheme].
  - destruct v as [|c v]; [now apply silent_matches|].
    assert (R : rematches (SetSearch (c :: v)) (strip_char 63 (c :: v)) QUERY (set_query (Some []) (o_url o))).
    { apply reparse_matches; [exact TO| |discriminate|discriminate|discriminate|now apply ml_query]. cbn [strip_char]. destruct (c =? 63) eqn:C; [apply N.eqb_eq in C; subst c; apply st_search_sign|]. apply N.eqb_neq in C. apply st_search; [discriminate|]. cbn [hd_error]. congruence. }
    destruct R as (R1 & R2 & R3). unfold matches, m_set_attr, set_attr. destruct (m_reparse X (strip_char 63 (c :: v)) QUERY _) as [l [u' r]]. destruct (reparse E (strip_char 63 (c :: v)) QUERY _) as [u'' r']. cbn [fst snd] in *. subst u''.
    split; [exact R1|]. destruct r as [a|e t], r' as [a'|e']; try contradiction; (split; [reflexivity|]); cbn [snd]; [exact I|exact R3].
  - destruct (cannot_have_username_password_port (o_url o)) eqn:OP; apply silent_matches; unfold m_set_attr, set_attr; rewrite OP; reflexivity.
Qed.
End Set_.

Section Parse.
Context (X : menv).
Lemma can_parse_sim s base : limit_ok (m_env X) -> idna_ok (m_env X) -> 
  is_pystr s -> short s -> base_parsed (with_validity (m_env X) true) base -> (forall t, base = BStr t -> short t) -> enc_ok (with_validity (m_env X) true) (normalize_encoding (with_validity (m_env X) true) UTF8) -> forall v,
  untold (fst (m_can_parse X s base v)) = can_parse (m_env X) s base /\
  (~ call_unquotable (with_validity (m_env X) true) base s -> in_order (call_message (with_validity (m_env X) true) (m_icu_code X) base UTF8 s) (snd (m_can_parse X s base v))) /\
  (fst (m_can_parse X s base v) = MOk false -> ms_valid (snd (m_can_parse X s base v)) = false /\ ms_types (snd (m_can_parse X s base v)) <> []).
Proof.
  intros HL HI H1 H2 H3 H4 H5 v. pose proof (parse_url_sim (checking X) HL (idna_validity (m_env X) true HI) s base UTF8 H5 H1 H2 H3 H4) as (S1 & S2).
  change (m_env (checking X)) with (with_validity (m_env X) true) in S1, S2. change (m_icu_code (checking X)) with (m_icu_code X) in S1, S2. change (has_validity (with_validity (m_env X) true)) with true in S1, S2.
  unfold m_can_parse, can_parse. cbv zeta. destruct (m_parse_url (checking X) s base UTF8) as [l r], (parse_url (with_validity (m_env X) true) s base UTF8) as [l' r']. cbn [fst snd] in *.
  split; [|split].
  - destruct r as [u|e t], r' as [u'|e']; cbn [same] in S2; try contradiction; [reflexivity|]. destruct S2 as (-> & _). destruct (is_url_error e'); reflexivity.
  - intros NU. exact (apply_order _ _ _ _ NU S1 _ (order_start _ v)).
  - intros F. destruct r as [u|e t], r' as [u'|e']; cbn [same] in S2; try contradiction; [discriminate F|]. destruct S2 as (-> & S2). destruct (is_url_error e') eqn:UE; [|discriminate F].
    destruct S2 as [S2|(_ & x & bits & _ & K & _)]; [|contradiction K]. destruct t as [t|]; cbn [blames] in S2; [|rewrite UE in S2; discriminate S2]. destruct S2 as (_ & l0 & w & bits & m & -> & _).
    split; [unfold ms_apply; rewrite fold_left_app; cbn [fold_left]; unfold ms_log; reflexivity|]. rewrite apply_types, map_app, rev_app_distr. discriminate.
Qed.
Lemma url_new_same s base : limit_ok (m_env X) -> idna_ok (m_env X) -> 
  is_pystr s -> short s -> base_parsed (with_validity (m_env X) false) base -> (forall t, base = BStr t -> short t) -> enc_ok (with_validity (m_env X) false) (normalize_encoding (with_validity (m_env X) false) UTF8) ->
  untold (snd (m_url_new X s base)) = url_new (m_env X) s base.
Proof.
  intros HL HI H1 H2 H3 H4 H5. pose proof (parse_url_sim (unchecked X) HL (idna_validity (m_env X) false HI) s base UTF8 H5 H1 H2 H3 H4) as (_ & S2).
  change (m_env (unchecked X)) with (with_validity (m_env X) false) in S2. unfold m_url_new, url_new. unfold mw_bind. destruct (m_parse_url (unchecked X) s base UTF8) as [l r], (parse_url (with_validity (m_env X) false) s base UTF8) as [l' r']. cbn [fst snd] in *.
  destruct r as [u|e t], r' as [u'|e']; cbn [same] in S2; try contradiction; [subst u'; reflexivity|]. destruct S2 as (-> & _). reflexivity.
Qed.
End Parse.
