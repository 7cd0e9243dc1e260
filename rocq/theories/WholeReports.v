(** URLValidator.is_valid against the standard's parser, host parser included. *)
From Coq Require Import Ascii String.
From Coq Require Import NArith ZArith Bool Arith Lia ZifyBool ZifyN ZifyNat List.
From Verif Require Import PyStr PyInt Codec Env HostModel UrlRecord Parser Schemes Validators Lemmas CodecProofs QuoteProofs
  IPv4Proofs IPv6Proofs HostProofs WfProofs ValidatorProofs ParamProofs RoundTrip UrlProps ValidityProofs StandardProofs SpecPyInt IntGrammar IPv6Grammar HostStandard ReportProofs ReportStandard
  HostReportProofs SpecText SpecHost SpecUrl SpecParser SpecReports SpecHostReports.
Import ListNotations.
Open Scope N_scope.

Definition both_empty {A} (l1 l2 : list A) : Prop := l1 = [] <-> l2 = [].
Lemma both_app {A} (a b c d : list A) : both_empty a b -> both_empty c d -> both_empty (a ++ c) (b ++ d).
Proof. unfold both_empty. intros H G. split; intros Q; apply app_eq_nil in Q as [Q1 Q2]; apply H in Q1; apply G in Q2; now rewrite Q1, Q2. Qed.

Section Swap.
Variables hp1 hp2 : str -> bool -> list verr * option host.
Variable base : option urlrec.
Variable inp : str.
Definition alike (h : str) (o : bool) : Prop := snd (hp1 h o) = snd (hp2 h o) /\ both_empty (fst (hp1 h o)) (fst (hp2 h o)).
Notation step2 := (parser_step (fun h o => snd (hp2 h o)) base inp).
Lemma step_reports k :
  (parser_step (fun _ _ => None) base inp k = None -> parser_step (fun _ _ => Some (HStr [])) base inp k <> None ->
   alike (k_buf k) (negb (std_is_special (k_url k)))) ->
  both_empty (std_reports hp1 base inp k) (std_reports hp2 base inp k).
Proof.
  destruct k as [st p buf a br pw u]. unfold parser_step, std_reports. cbn [k_state k_ptr k_buf k_at k_br k_pw k_url]. intros H.
  destruct st; try (split; intros Q; exact Q).
  - destruct (sis (nth_error inp p) 58 && negb br).
    + destruct (length buf =? 0)%nat; [split; intros Q; exact Q|]. apply H; [reflexivity|discriminate].
    + destruct (_ || _ || _ || _ || _); [|split; intros Q; exact Q]. destruct (std_is_special u && (length buf =? 0)%nat); [split; intros Q; exact Q|]. apply H; [reflexivity|discriminate].
  - destruct (_ || _ || _ || _ || _); [|split; intros Q; exact Q]. destruct (std_any_drive_letter buf); [split; intros Q; exact Q|].
    destruct (length buf =? 0)%nat; [split; intros Q; exact Q|]. apply H; [reflexivity|discriminate].
Qed.
Lemma reported_swap k l1 : std_reported hp1 base inp k l1 ->
  (forall h o, std_asks (fun h o => snd (hp2 h o)) base inp k h o -> alike h o) ->
  exists l2, std_reported hp2 base inp k l2 /\ both_empty l1 l2.
Proof.
  intros R. induction R as [k L|k L S|k k' l L S R IH]; intros A.
  - exists []. split; [now constructor|split; auto].
  - assert (Q : step2 k = None).
    { rewrite <- S. symmetry. apply step_ask. intros X Y. apply A. now apply asks_here. }
    exists (std_reports hp2 base inp k). split; [now apply reported_fail|]. apply step_reports. intros X Y. apply A. now apply asks_here.
  - assert (Q : step2 k = Some k').
    { rewrite <- S. symmetry. apply step_ask. intros X Y. apply A. now apply asks_here. }
    destruct IH as (l2 & R2 & B); [intros h o G; apply A; eapply asks_later; eassumption|].
    exists (std_reports hp2 base inp k ++ l2). split; [now apply (reported_step hp2 base inp k k')|]. apply both_app; [|exact B].
    apply step_reports. intros X Y. apply A. now apply asks_here.
Qed.
End Swap.

(** a host that is asked for by the standard is asked for by the code *)
Lemma asks_swap hp1 hp2 base inp k h o : std_asks hp2 base inp k h o -> (forall x y, std_asks hp2 base inp k x y -> hp1 x y = hp2 x y) -> std_asks hp1 base inp k h o.
Proof.
  intros A. induction A as [k L X Y|k k' h o L S A IH]; intros H; [now apply asks_here|].
  apply (asks_later _ _ _ k k'); [exact L| |apply IH; intros x y B; apply H; now apply (asks_later _ _ _ k k')].
  rewrite <- S. apply step_ask. intros X Y. apply H. now apply asks_here.
Qed.
Lemma reads_swap2 hp1 hp2 base inp k b : std_reads hp2 base inp k b -> (forall x y, std_asks hp2 base inp k x y -> hp1 x y = hp2 x y) -> std_reads hp1 base inp k b.
Proof.
  intros A. induction A as [k L X|k k' b L S A IH]; intros H; [now apply reads_here|].
  apply (reads_later _ _ _ k k'); [exact L| |apply IH; intros x y B; apply H; now apply (asks_later _ _ _ k k')].
  rewrite <- S. apply step_ask. intros X Y. apply H. now apply asks_here.
Qed.
Section New.
Context (E : env) (s : str) (base : option urlrec) (enc : str).
Hypothesis (HE : limit_ok E) (He : normalize_encoding E enc = $"utf-8") (Hs : scalar_string s) (BG : std_good_base base).
Hypothesis (R : hosts_satisfy (regular_host E) (std_host_parse (code_to_ascii E)) base s).
Notation sh := (std_host_parse (code_to_ascii E)).
Notation shl := (std_host_log (code_to_ascii E)).
Definition ports_fit : Prop := forall b, std_port_read sh base s b -> short_for (int_limit E) b.
Lemma same_hosts h o : std_host_of sh base s h o -> code_host E h o = sh h o.
Proof. intros A. destruct (asked_host _ _ _ _ _ A Hs) as [P Q]. exact (host_std E h o HE P Q (R h o A)). Qed.
Lemma ports_code : ports_fit <-> forall b, std_port_read (code_host E) base s b -> short_for (int_limit E) b.
Proof.
  split; intros H b B; apply H.
  - now apply (read_swap E).
  - eapply reads_swap2; [exact B|]. exact same_hosts.
Qed.
(** nothing escapes: then all port texts are short, and no host raises ValueError *)
Lemma no_escape : snd (parse_new E s base enc) <> Err EValue ->
  ports_fit /\ forall h o, std_host_of sh base s h o -> snd (host_parse E h o) <> Err EValue.
Proof.
  intros NE. split.
  - apply ports_code. intros b B. destruct (too_long E b) eqn:Q.
    + exfalso. apply NE. apply (new_raises E s base enc He Hs BG). left. exists b. split; [exact B|now apply too_long_iff].
    + unfold too_long in Q. unfold short_for. destruct (int_limit E); [lia|trivial].
  - intros h o A Q. apply NE. apply (new_raises E s base enc He Hs BG). right. exists h, o. split; [|exact Q].
    eapply asks_swap; [exact A|]. exact same_hosts.
Qed.
Lemma hosts_alike : snd (parse_new E s base enc) <> Err EValue ->
  forall h o, std_host_of sh base s h o -> alike (code_host_log E) shl h o.
Proof.
  intros NE h o A. destruct (asked_host _ _ _ _ _ A Hs) as [P Q]. split; [exact (same_hosts h o A)|].
  apply (host_log_empty E h o HE P Q); [|exact (R h o A)]. now apply (proj2 (no_escape NE)).
Qed.
(** one run of the parser: the code's log is empty if and only if the standard reports nothing *)
Lemma new_empty : snd (parse_new E s base enc) <> Err EValue ->
  exists l, std_parse_reports shl base s l /\ both_empty (fst (parse_new E s base enc)) l.
Proof.
  intros NE. destruct (reports_conform E s base enc He (proj1 ports_code (proj1 (no_escape NE))) BG) as (l0 & (l1 & H1 & ->) & D).
  assert (A : both_empty (fst (parse_new E s base enc)) (std_input_reports s ++ l1)).
  { destruct (file_pipe_host base s); cbn [differ] in D; [|rewrite D; split; auto]. destruct D as (x & y & -> & ->). split; intros Q; destruct x; discriminate. }
  destruct (reported_swap (code_host_log E) shl base _ _ _ H1 (hosts_alike NE)) as (l2 & H2 & B).
  exists (std_input_reports s ++ l2). split; [exists l2; split; [exact H2|reflexivity]|].
  unfold both_empty in *. rewrite A. apply both_app; [split; auto|exact B].
Qed.
(** ... and its result *)
Lemma new_result : ports_fit ->
  exists r, std_basic_parse sh base s r /\
    match r, snd (parse_new E s base enc) with Some v, Ok u => scheme u = scheme v | None, Err _ => True | _, _ => False end.
Proof.
  intros PF. destruct (file_only base s) eqn:F.
  - destruct base as [b|] eqn:Q; [|discriminate F]. destruct (conforms_file_only E s b enc He Hs BG F) as (v & A & B).
    exists (Some v). split; [now apply basic_swap|]. rewrite B. apply append_scheme.
  - exists (outcome (snd (parse_new E s base enc))). split; [apply basic_swap; auto; now apply (conforms_ports E s base enc He Hs (proj1 ports_code PF) BG F)|].
    destruct (snd (parse_new E s base enc)); cbn [outcome]; auto.
Qed.
End New.
Lemma basic_det hp base s r1 r2 : std_basic_parse hp base s r1 -> std_basic_parse hp base s r2 -> r1 = r2.
Proof. apply std_runs_det. Qed.

(** the parser accepts without a word, and so does the standard's *)
Definition std_accepts (f : str -> option str) (s : str) (base : base_arg) (sch : str) : Prop :=
  std_url_reports (std_host_log f) s base [] /\ exists u, std_url_parse (std_host_parse f) s base (Some u) /\ scheme u = sch.
Lemma new_accepts E s base enc sch : limit_ok E -> normalize_encoding E enc = $"utf-8" -> scalar_string s -> std_good_base base ->
  hosts_satisfy (regular_host E) (std_host_parse (code_to_ascii E)) base s ->
  ((exists u, parse_new E s base enc = ([], Ok u) /\ scheme u = sch) <->
   (std_parse_reports (std_host_log (code_to_ascii E)) base s [] /\ exists v, std_basic_parse (std_host_parse (code_to_ascii E)) base s (Some v) /\ scheme v = sch) /\
   ports_fit E s base).
Proof.
  intros HE He Hs BG R. split.
  - intros (u & W & S). assert (NE : snd (parse_new E s base enc) <> Err EValue) by (rewrite W; discriminate).
    pose proof (proj1 (no_escape E s base enc HE He Hs BG R NE)) as PF. split; [|exact PF].
    destruct (new_empty E s base enc HE He Hs BG R NE) as (l & L & B). destruct (new_result E s base enc HE He Hs BG R PF) as (r & P & Q). rewrite W in B, Q. cbn [fst snd] in *.
    assert (l = []) by (now apply B). subst l. split; [exact L|]. destruct r as [v|]; [|destruct Q]. exists v. split; [exact P|congruence].
  - intros ((L0 & v & P0 & S) & PF). destruct (new_result E s base enc HE He Hs BG R PF) as (r & P & Q).
    assert (r = Some v) by (now apply (basic_det _ _ _ _ _ P)). subst r.
    assert (NE : snd (parse_new E s base enc) <> Err EValue) by (intros X; rewrite X in Q; exact Q).
    destruct (new_empty E s base enc HE He Hs BG R NE) as (l & L & B).
    assert (l = []) by (now apply (parse_reports_det _ _ _ _ _ L)). subst l. destruct (parse_new E s base enc) as [l' x]. cbn [fst snd] in *.
    assert (l' = []) by (now apply B). subst l'. destruct x as [u|e]; [|destruct Q]. exists u. split; [reflexivity|congruence].
Qed.
Definition arg_ports_fit (E : env) (s : str) (base : base_arg) : Prop :=
  forall b, arg_port_read (std_host_parse (code_to_ascii E)) base s b -> short_for (int_limit E) b.
Lemma url_accepts E s base enc sch : limit_ok E -> normalize_encoding E enc = $"utf-8" -> scalar_string s ->
  good_base_arg None base -> arg_hosts_satisfy (regular_host E) (std_host_parse (code_to_ascii E)) base s ->
  ((exists u, parse_url E s base enc = ([], Ok u) /\ scheme u = sch) <-> std_accepts (code_to_ascii E) s base sch /\ arg_ports_fit E s base).
Proof.
  intros HE He Hs HB HR. unfold std_accepts, arg_ports_fit. destruct base as [|t|b].
  - assert (Q : parse_url E s BNone enc = parse_new E s None enc) by (unfold parse_url; cbn [wbind wret app]; destruct (parse_new E s None enc); reflexivity).
    rewrite Q, (new_accepts E s None enc sch HE He Hs I HR). split.
    + intros ((A & v & B & C) & D). split; [|exact D]. split; [now constructor|]. exists v. split; [now constructor|exact C].
    + intros ((A & v & B & C) & D). split; [|exact D]. split; [now inversion A|]. exists v. split; [now inversion B|exact C].
  - destruct HB as [Ht _]. destruct HR as [R1 R2]. pose proof (fun sch => new_accepts E t None enc sch HE He Ht I R1) as NT.
    assert (GB : forall u, snd (parse_new E t None enc) = Ok u -> std_good_base (Some u)) by (intros u; now apply (parsed_good E t enc u He (proj1 Ht))).
    assert (PU : forall u, parse_url E s (BStr t) enc = ([], Ok u) <-> exists b, parse_new E t None enc = ([], Ok b) /\ parse_new E s (Some b) enc = ([], Ok u)).
    { intros u. unfold parse_url. split.
      - intros H. destruct (parse_new E t None enc) as [l [b|e]]; [|discriminate H]. cbn [wbind wret] in H. exists b.
        rewrite app_nil_r in H. destruct (parse_new E s (Some b) enc) as [l' r]. injection H as H1 H2. apply app_eq_nil in H1 as [-> ->]. subst r. auto.
      - intros (b & -> & Q). cbn [wbind wret app]. rewrite Q. reflexivity. }
    assert (CB' : ports_fit E t None -> forall r, std_basic_parse (std_host_parse (code_to_ascii E)) None t r <-> r = outcome (snd (parse_new E t None enc))).
    { intros PF r. rewrite basic_swap by auto. apply conforms_ports; auto; [|exact I]. now apply (ports_code E t None HE Ht R1). }
    split.
    + intros (u & H & S). apply PU in H as (b & H1 & H2). destruct (proj1 (NT (scheme b)) (ex_intro _ b (conj H1 eq_refl))) as ((A1 & _) & F1).
      assert (X : std_basic_parse (std_host_parse (code_to_ascii E)) None t (Some b)) by (apply (CB' F1); now rewrite H1).
      assert (G : std_good_base (Some b)) by (apply GB; now rewrite H1).
      destruct (proj1 (new_accepts E s (Some b) enc sch HE He Hs G (R2 b X)) (ex_intro _ u (conj H2 S))) as ((A2 & v & A3 & A4) & F2).
      split; [split; [exact (sur_str _ s t b [] [] A1 X A2)|]; exists v; split; [exact (sup_str _ s t b (Some v) X A3)|exact A4]|].
      intros p [P|(b' & X' & P)]; [now apply F1|]. assert (b' = b) by (assert (Some b' = Some b) by (now apply (basic_det _ _ _ _ _ X')); congruence). subst b'. now apply F2.
    + intros ((A & v & B & C) & F). assert (F1 : ports_fit E t None) by (intros p P; apply F; now left).
      inversion B as [| |? b ? X B2|]; subst. inversion A as [| |? b' l1 l2 A1 X' A2|? ? A1 X']; subst.
      * assert (b' = b) by (assert (Some b' = Some b) by (now apply (basic_det _ _ _ _ _ X')); congruence). subst b'.
        match goal with H : l1 ++ l2 = [] |- _ => apply app_eq_nil in H as [-> ->] end.
        destruct (proj2 (NT (scheme b))) as (b1 & H1 & _); [split; [split; [exact A1|]; exists b; split; [exact X|reflexivity]|exact F1]|].
        assert (b1 = b).
        { pose proof (proj1 (CB' F1 _) X) as Y. rewrite H1 in Y. cbn [snd outcome] in Y. congruence. }
        subst b1. assert (G : std_good_base (Some b)) by (apply GB; now rewrite H1).
        assert (F2 : ports_fit E s (Some b)) by (intros p P; apply F; right; eauto).
        destruct (proj2 (new_accepts E s (Some b) enc (scheme v) HE He Hs G (R2 b X))) as (u & H2 & S); [split; [split; [exact A2|]; exists v; split; [exact B2|reflexivity]|exact F2]|].
        exists u. split; [|exact S]. apply PU. exists b. auto.
      * assert (Some b = None) by (now apply (basic_det _ _ _ _ _ X)). discriminate.
  - assert (Q : parse_url E s (BRec b) enc = parse_new E s (Some b) enc) by (unfold parse_url; cbn [wbind wret app]; destruct (parse_new E s (Some b) enc); reflexivity).
    rewrite Q, (new_accepts E s (Some b) enc sch HE He Hs HB HR). split.
    + intros ((A & v & B & C) & D). split; [|exact D]. split; [now constructor|]. exists v. split; [now constructor|exact C].
    + intros ((A & v & B & C) & D). split; [|exact D]. split; [now inversion A|]. exists v. split; [now inversion B|exact C].
Qed.
Theorem valid_standard E s base enc v : limit_ok E -> normalize_encoding E enc = $"utf-8" -> scalar_string s ->
  good_base_arg None base -> base_parsed (with_validity E true) base ->
  arg_hosts_satisfy (regular_host (with_validity E true)) (std_host_parse (code_to_ascii E)) base s ->
  (fst (url_is_valid E s base enc v) = Ok true <->
   (std_url_reports (std_host_log (code_to_ascii E)) s base [] /\
    exists u, std_url_parse (std_host_parse (code_to_ascii E)) s base (Some u) /\ In (scheme u) REGISTERED_SCHEMES) /\
   forall b, arg_port_read (std_host_parse (code_to_ascii E)) base s b -> short_for (int_limit E) b).
Proof.
  intros HE He Hs HB HP HR. rewrite (url_valid_spec E s base enc v); [|rewrite He; now left|exact (proj1 Hs)|exact HP].
  pose proof (fun sch => url_accepts (with_validity E true) s base enc sch HE He Hs HB HR) as A. split.
  - intros (u & H & R). destruct (proj1 (A (scheme u)) (ex_intro _ u (conj H eq_refl))) as ((A1 & w & A2 & A3) & A4). split; [|exact A4]. split; [exact A1|]. exists w. split; [exact A2|now rewrite A3].
  - intros ((A1 & w & A2 & R) & A4). destruct (proj2 (A (scheme w))) as (u & H & S); [split; [split; [exact A1|]; exists w; split; [exact A2|reflexivity]|exact A4]|]. exists u. split; [exact H|now rewrite S].
Qed.

Theorem url_reports_equal E s base enc : normalize_encoding E enc = $"utf-8" -> good_base_arg None base ->
  (forall b, arg_port_read (code_host E) base s b -> short_for (int_limit E) b) ->
  no_pipe_host (code_host E) base s ->
  forall l, std_url_reports (code_host_log E) s base l <-> l = fst (parse_url E s base enc).
Proof.
  intros He HB HL HN. destruct base as [|t|b].
  - assert (Q : parse_url E s BNone enc = parse_new E s None enc) by (unfold parse_url; cbn [wbind wret app]; destruct (parse_new E s None enc); reflexivity).
    rewrite Q. intros l. rewrite <- (reports_equal E s None enc He HL I HN l). split; [now inversion 1|now constructor].
  - destruct HB as [Ht _]. destruct HN as [N1 N2]. cbn [arg_port_read] in HL. pose proof (reports_equal E t None enc He (fun b A => HL b (or_introl A)) I N1) as RT.
    pose proof (conforms_ports E t None enc He Ht (fun b A => HL b (or_introl A)) I eq_refl) as CB.
    change (fun h o => snd (code_host_log E h o)) with (code_host E) in *.
    assert (PU : fst (parse_url E s (BStr t) enc) = fst (parse_new E t None enc) ++ match snd (parse_new E t None enc) with Ok b => fst (parse_new E s (Some b) enc) | Err _ => [] end).
    { unfold parse_url. rewrite !fst_wbind, snd_wbind. destruct (snd (parse_new E t None enc)); cbn [wret fst snd]; now rewrite ?app_nil_r. }
    rewrite PU. destruct (snd (parse_new E t None enc)) as [u|e] eqn:Q; cbn [outcome] in CB.
    + pose proof (parsed_good E t enc u He (proj1 Ht) Q) as GB.
      assert (X : std_basic_parse (code_host E) None t (Some u)) by now apply CB.
      assert (HL2 : forall b, std_port_read (code_host E) (Some u) s b -> short_for (int_limit E) b) by (intros b A; apply HL; right; eauto).
      pose proof (reports_equal E s (Some u) enc He HL2 GB (N2 u X)) as RS. intros l. split.
      * inversion 1 as [| |? b l1 l2 A1 A2 A3|? ? A1 A2]; subst.
        -- apply CB in A2. injection A2 as ->. apply RT in A1. apply RS in A3. now rewrite A1, A3.
        -- apply CB in A2. discriminate.
      * intros ->. apply (sur_str _ s t u); [now apply RT|exact X|now apply RS].
    + intros l. rewrite app_nil_r. split.
      * inversion 1 as [| |? b l1 l2 A1 A2 A3|? ? A1 A2]; subst; [apply CB in A2; discriminate|]. now apply RT.
      * intros ->. apply sur_fail; [now apply RT|now apply CB].
  - assert (Q : parse_url E s (BRec b) enc = parse_new E s (Some b) enc) by (unfold parse_url; cbn [wbind wret app]; destruct (parse_new E s (Some b) enc); reflexivity).
    rewrite Q. intros l. rewrite <- (reports_equal E s (Some b) enc He HL HB HN l). split; [now inversion 1|now constructor].
Qed.

(** the reports of a run, computed *)
Fixpoint reports_exec (fuel : nat) (hp : str -> bool -> list verr * option host) (base : option urlrec) (inp : str) (k : cfg) : option (list verr) :=
  match fuel with
  | O => None
  | Datatypes.S n =>
      if (length inp <? k_ptr k)%nat then Some []
      else match parser_step (fun h o => snd (hp h o)) base inp k with
           | None => Some (std_reports hp base inp k)
           | Some k' => match reports_exec n hp base inp k' with Some l => Some (std_reports hp base inp k ++ l) | None => None end
           end
  end.
Lemma reports_exec_run fuel hp base inp : forall k l, reports_exec fuel hp base inp k = Some l -> std_reported hp base inp k l.
Proof.
  induction fuel as [|n IH]; intros k l H; [discriminate|]. cbn [reports_exec] in H. destruct (length inp <? k_ptr k)%nat eqn:L.
  - injection H as <-. apply reported_end. lia.
  - destruct (parser_step (fun h o => snd (hp h o)) base inp k) as [k'|] eqn:S.
    + destruct (reports_exec n hp base inp k') as [l'|] eqn:R; [|discriminate]. injection H as <-. apply (reported_step hp base inp k k'); [lia|exact S|now apply IH].
    + injection H as <-. apply reported_fail; [lia|exact S].
Qed.
Lemma reports_computed fuel hp base s l :
  match reports_exec fuel hp base (std_input s) (mkcfg S_scheme_start 0 [] false false false new_url) with Some l' => Some (std_input_reports s ++ l') | None => None end = Some l ->
  std_parse_reports hp base s l.
Proof.
  destruct (reports_exec fuel hp base (std_input s) _) as [l'|] eqn:H; [|discriminate]. intros Q. injection Q as <-. exists l'. split; [exact (reports_exec_run _ _ _ _ _ _ H)|reflexivity].
Qed.
