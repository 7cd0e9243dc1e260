(** Valid URL strings (SpecWriting.v) and the strings on which the parser reports no
    validation error. *)
From Coq Require Import Ascii String.
From Coq Require Import NArith ZArith Bool Arith Lia ZifyBool ZifyN ZifyNat List.
From Verif Require Import PyStr PyInt Codec Env HostModel UrlRecord Parser FlatParser Lemmas CodecProofs QuoteProofs
  IPv4Proofs IPv6Proofs HostProofs WfProofs ValidatorProofs ParamProofs LoopProofs FlatProofs StandardProofs SpecPyInt IntGrammar SpecIPv6 IPv6Grammar
  HostStandard ReportProofs ReportStandard HostReportProofs
  SpecText SpecHost SpecUrl SpecParser SpecReports SpecHostReports SpecWriting.
Import ListNotations.
Open Scope N_scope.

(* ---------- URL units ---------- *)
Lemma report_nil b v : @eq log (report b v) [] <-> b = false.
Proof. destruct b; split; cbn; congruence. Qed.
Lemma app_nil_iff (a b : log) : @eq log (a ++ b) [] <-> @eq log a [] /\ @eq log b [].
Proof. split; [apply app_eq_nil|now intros [-> ->]]. Qed.
Lemma frag_nil s : frag_errs s = [] <-> unit_string s.
Proof.
  unfold unit_string. rewrite units_none. induction s as [|c t IH]; [split; auto|]. cbn [frag_errs existsb std_bad_escape].
  rewrite app_nil_iff, IH, unit_eq. unfold std_unit_errors. rewrite (app_nil_iff (report _ _)), !report_nil, !orb_false_iff. tauto.
Qed.
Lemma units_app P a b : url_units P a -> url_units P b -> url_units P (a ++ b).
Proof. intros A B. induction A; cbn [app]; [exact B|now apply uu_cp|now apply uu_esc]. Qed.
Lemma units_impl (P Q : N -> Prop) s : (forall c, P c -> Q c) -> url_units P s -> url_units Q s.
Proof. intros I. induction 1; [apply uu_nil|apply uu_cp; auto|apply uu_esc; auto]. Qed.
(** every character of a string of URL units *)
Lemma units_in P s : url_units P s -> forall c, In c s -> P c \/ c = 37 \/ std_hex c <> None.
Proof.
  induction 1 as [|c t A H IH|x y t X Y H IH]; intros z Z; [destruct Z| |].
  - destruct Z as [<-|Z]; auto.
  - destruct Z as [<-|[<-|[<-|Z]]]; auto.
Qed.
Lemma hex_range c : std_hex c <> None -> (48 <= c <= 57) \/ (65 <= c <= 70) \/ (97 <= c <= 102).
Proof. unfold std_hex. destruct ((48 <=? c) && (c <=? 57)) eqn:A; [lia|]. destruct ((65 <=? c) && (c <=? 70)) eqn:B; [lia|]. destruct ((97 <=? c) && (c <=? 102)) eqn:C; [lia|congruence]. Qed.
Lemma unit_in s c : unit_string s -> In c s -> c <> 35 /\ c <> 92 /\ 32 < c /\ c <> 91 /\ c <> 93.
Proof.
  intros H Hc. destruct (units_in _ _ H c Hc) as [A|[-> |A]]; [|lia|apply hex_range in A; lia].
  unfold std_url_code_point in A. cbn [one_of existsb] in A. lia.
Qed.
Lemma segment_in s c : segment_string s -> In c s -> c <> 35 /\ c <> 92 /\ 32 < c /\ c <> 47 /\ c <> 63.
Proof.
  intros H Hc. destruct (units_in _ _ H c Hc) as [[A B]|[-> |A]]; [|lia|apply hex_range in A; lia].
  unfold std_url_code_point in A. cbn [one_of existsb] in A. lia.
Qed.
Lemma segment_unit s : segment_string s -> unit_string s.
Proof. apply units_impl. now intros c [H _]. Qed.
Lemma path_unit s : path_string s -> unit_string s /\ ~ In 63 s.
Proof.
  induction 1 as [s H|s t H P [IH1 IH2]].
  - split; [now apply segment_unit|]. intros I. now apply (segment_in _ _ H) in I.
  - split.
    + apply units_app; [now apply segment_unit|]. apply uu_cp; [reflexivity|exact IH1].
    + intros I. apply in_app_or in I as [I|[I|I]]; [now apply (segment_in _ _ H) in I|discriminate|auto].
Qed.
Lemma path_cons_cp c s : std_url_code_point c = true -> c <> 47 -> c <> 63 -> path_string s -> path_string (c :: s).
Proof.
  intros C1 C2 C3 [s' H|s' t H P].
  - apply ps_last. now apply uu_cp.
  - apply (ps_more (c :: s') t); [now apply uu_cp|exact P].
Qed.
Lemma path_cons_esc x y s : std_hex x <> None -> std_hex y <> None -> path_string s -> path_string (37 :: x :: y :: s).
Proof.
  intros X Y [s' H|s' t H P].
  - apply ps_last. now apply uu_esc.
  - apply (ps_more (37 :: x :: y :: s') t); [now apply uu_esc|exact P].
Qed.
Lemma path_units s : path_string s <-> unit_string s /\ ~ In 63 s.
Proof.
  split; [apply path_unit|]. intros [H Q]. induction H as [|c t A H IH|x y t X Y H IH].
  - apply ps_last, uu_nil.
  - assert (P : path_string t) by (apply IH; intros I; apply Q; now right). destruct (N.eq_dec c 47) as [-> |C].
    + apply (ps_more [] t); [apply uu_nil|exact P].
    + apply path_cons_cp; auto. intros ->. apply Q. now left.
  - apply path_cons_esc; auto. apply IH. intros I. apply Q. now do 3 right.
Qed.

(* ---------- paths, queries, fragments ---------- *)
Definition tail_string (t : str) : Prop := exists q f, t = q ++ f /\ optional 63 unit_string q /\ optional 35 unit_string f.

Lemma bad_percent_stop x c t : std_hex c = None -> std_two_hex (x ++ c :: t) = std_two_hex x.
Proof.
  intros C. assert (D : std_hex_digit c = false) by (unfold std_hex_digit; now rewrite C).
  destruct x as [|a [|b x]]; cbn [app std_two_hex]; [destruct t; [reflexivity|now rewrite D]|rewrite D; now rewrite andb_false_r|reflexivity].
Qed.
Lemma unit_errs_stop c x d t : std_hex d = None -> unit_errs c (x ++ d :: t) = unit_errs c x.
Proof. intros D. rewrite !unit_eq. unfold std_unit_errors. now rewrite bad_percent_stop. Qed.
Lemma query_errs_app q t : ~ In 35 q -> match t with [] => True | c :: _ => c = 35 end -> query_errs (q ++ t) = frag_errs q.
Proof.
  intros Q T. induction q as [|c q IH]; cbn [app].
  - destruct t as [|c t]; [reflexivity|]. subst. reflexivity.
  - cbn [query_errs frag_errs]. replace (c =? 35) with false by (destruct (N.eqb_spec c 35) as [-> |]; [exfalso; apply Q; now left|reflexivity]).
    rewrite IH by (intros I; apply Q; now right). f_equal. destruct t as [|d t]; [now rewrite app_nil_r|]. subst. now apply unit_errs_stop.
Qed.
Lemma query_log_nil s : query_log s = [] <-> exists q f, s = q ++ f /\ unit_string q /\ optional 35 unit_string f.
Proof.
  unfold query_log. pose proof (span_eq (fun c => negb (c =? 35)) s) as A. pose proof (LoopProofs.span_all (fun c => negb (c =? 35)) s) as B.
  pose proof (span_stop (fun c => negb (c =? 35)) s) as C. destruct (span (fun c => negb (c =? 35)) s) as [q t]. cbn [fst snd] in *. subst s.
  assert (Q : ~ In 35 q) by (intros I; rewrite Forall_forall in B; apply B in I; discriminate).
  assert (T : match t with [] => True | c :: _ => c = 35 end) by (destruct t; [exact I|lia]).
  rewrite query_errs_app by auto. rewrite app_nil_iff, frag_nil. split.
  - intros [U V]. exists q, t. split; [reflexivity|split; [exact U|]]. destruct t as [|c t]; [now left|]. right. exists t. subst. split; [reflexivity|now apply frag_nil].
  - intros (q' & f & H & U & F). assert (q' = q /\ f = t) as [-> ->].
    { assert (Q' : ~ In 35 q') by (intros I; now apply (unit_in _ _ U) in I).
      assert (F' : match f with [] => True | c :: _ => c = 35 end) by (destruct F as [-> |(x & -> & _)]; auto).
      clear U F. revert q' H Q' F'. clear - Q T. induction q as [|c q IH]; intros [|d q'] H Q' F'; cbn [app] in H.
      - auto.
      - subst t. exfalso. apply Q'. now left.
      - subst f. exfalso. apply Q. now left.
      - injection H as <- H. destruct (IH ltac:(intros I; apply Q; now right) q' H ltac:(intros I; apply Q'; now right) F') as [-> ->]. auto. }
    split; [exact U|]. destruct F as [-> |(x & -> & F)]; [reflexivity|]. now apply frag_nil.
Qed.
Lemma tail_log_nil t : match t with [] => True | c :: _ => is_qf c = true end -> (tail_log t = [] <-> tail_string t).
Proof.
  intros T. destruct t as [|c t]; [split; [intros _; exists [], []; repeat split; now left|reflexivity]|]. cbn [tail_log].
  rewrite FlatProofs.qf_eq in T. destruct (c =? 63) eqn:C.
  - apply N.eqb_eq in C as ->. rewrite query_log_nil. split.
    + intros (q & f & -> & U & F). exists (63 :: q), f. split; [reflexivity|split; [right; eauto|exact F]].
    + intros (q & f & H & [-> |(q' & -> & U)] & F).
      * destruct F as [-> |(x & -> & _)]; discriminate H.
      * injection H as ->. eauto.
  - assert (c = 35) by lia. subst c. rewrite frag_nil. split.
    + intros U. exists [], (35 :: t). split; [reflexivity|split; [now left|right; eauto]].
    + intros (q & f & H & [-> |(q' & -> & U)] & F); [|discriminate H]. cbn [app] in H. subst f. destruct F as [F|(x & F & U)]; [discriminate|]. now injection F as <-.
Qed.
Lemma tail_stop t : tail_string t -> match t with [] => True | c :: _ => is_qf c = true end.
Proof. intros (q & f & -> & [-> |(q' & -> & _)] & F); [|reflexivity]. destruct F as [-> |(f' & -> & _)]; [exact I|reflexivity]. Qed.
Lemma path_errs_app sp p t : Forall (fun c => is_qf c = false) p -> match t with [] => True | c :: _ => is_qf c = true end ->
  (path_errs sp (p ++ t) = [] <-> frag_errs p = []).
Proof.
  intros P T. induction P as [|c p C P IH]; cbn [app].
  - destruct t as [|c t]; [reflexivity|]. cbn [path_errs]. rewrite T. reflexivity.
  - cbn [path_errs frag_errs]. rewrite C. assert (U : unit_errs c (p ++ t) = unit_errs c p).
    { destruct t as [|d t]; [now rewrite app_nil_r|]. apply unit_errs_stop. rewrite FlatProofs.qf_eq in T. assert (d = 63 \/ d = 35) as [-> | ->] by lia; reflexivity. }
    rewrite U. rewrite app_nil_iff. destruct ((c =? 47) || (sp && (c =? 92))) eqn:S; [|rewrite app_nil_iff, IH; tauto].
    rewrite app_nil_iff. destruct (c =? 47) eqn:C1.
    + apply N.eqb_eq in C1 as ->. rewrite IH. change (47 =? 92) with false. rewrite andb_false_r. cbn. tauto.
    + cbn [orb] in S. rewrite S. apply andb_true_iff in S as [_ S]. apply N.eqb_eq in S as ->. cbn. split; intros [H _]; discriminate H.
Qed.
Lemma path_log_nil sp s : path_log sp s = [] <-> exists p t, s = p ++ t /\ path_string p /\ tail_string t.
Proof.
  assert (G : forall p t, Forall (fun c => is_qf c = false) p -> match t with [] => True | c :: _ => is_qf c = true end ->
    (path_log sp (p ++ t) = [] <-> path_string p /\ tail_string t)).
  { intros p t P T. unfold path_log. rewrite span_app; [|eapply Forall_impl; [|exact P]; cbv beta; intros c ->; reflexivity|destruct t; [exact I|now rewrite T]].
    cbn [snd]. rewrite app_nil_iff, path_errs_app, frag_nil, tail_log_nil, path_units by auto. split; [|tauto].
    intros [A B]. split; [|exact B]. split; [exact A|]. intros I. rewrite Forall_forall in P. apply P in I. discriminate. }
  split.
  - pose proof (span_eq (fun c => negb (is_qf c)) s) as A. pose proof (LoopProofs.span_all (fun c => negb (is_qf c)) s) as B.
    pose proof (span_stop (fun c => negb (is_qf c)) s) as C. destruct (span (fun c => negb (is_qf c)) s) as [p t]. cbn [fst snd] in *. subst s.
    intros H. exists p, t. split; [reflexivity|]. apply G; [| |exact H].
    + eapply Forall_impl; [|exact B]. cbv beta. intros c. apply negb_true_iff.
    + destruct t; [exact I|now apply negb_false_iff].
  - intros (p & t & -> & P & T). apply G; [|now apply tail_stop|split; auto].
    apply path_unit in P as [P Q]. apply Forall_forall. intros c Hc. rewrite FlatProofs.qf_eq.
    apply (unit_in _ _ P) in Hc as H. destruct (N.eq_dec c 63) as [-> |]; [contradiction|lia].
Qed.
Lemma opaque_log_nil s : ReportProofs.opaque_log s = [] <-> path_log false s = [].
Proof.
  assert (G : forall s, opaque_errs s = [] <-> path_errs false s = []).
  { induction s0 as [|c t IH]; [reflexivity|]. cbn [opaque_errs path_errs andb]. rewrite orb_false_r. destruct (is_qf c); [reflexivity|].
    destruct (c =? 47) eqn:C; [|rewrite !app_nil_iff, IH; tauto]. apply N.eqb_eq in C as ->. rewrite app_nil_iff. cbn [rep app]. rewrite IH.
    assert (U : unit_errs 47 t = []) by (rewrite unit_eq; reflexivity). tauto. }
  unfold ReportProofs.opaque_log, path_log. rewrite !app_nil_iff, G. tauto.
Qed.

(* ---------- hosts ---------- *)
Definition code_dom (E : env) (h : str) : Prop := domain_chars true h /\ fst (host_parse E h false) = [].
Definition code_v6 (a : str) : Prop := exists x, code_v6_text a x.

Lemma radix_hex r s : forall acc v, std_radix_value r s acc = Some v -> forall c, In c s -> std_hex c <> None.
Proof.
  induction s as [|d s IH]; intros acc v H c Hc; [destruct Hc|]. cbn [std_radix_value] in H. unfold std_radix_digit in H.
  destruct (std_hex d) as [x|] eqn:D; [|discriminate]. destruct (x <? r); [|discriminate]. destruct Hc as [<-|Hc]; [congruence|]. exact (IH _ _ H c Hc).
Qed.
Definition v6_char (c : N) : Prop := std_hex c <> None \/ c = 46 \/ c = 58.
Lemma item_chars s vs : v6_item s vs -> forall c, In c s -> v6_char c.
Proof.
  intros [s' v [_ H]|sa sb sc sd a b c d (_ & A & _) (_ & B & _) (_ & C & _) (_ & D & _)] x X; unfold v6_char.
  - left. exact (radix_hex _ _ _ _ H x X).
  - repeat (apply in_app_or in X; destruct X as [X|X]); try (destruct X as [<-|[]]; right; left; reflexivity); left; (eapply radix_hex; [|exact X]; eassumption).
Qed.
Lemma seq_chars s vs : v6_seq s vs -> forall c, In c s -> v6_char c.
Proof.
  induction 1 as [s vs H|s vs t ws H T IH]; intros c C; [exact (item_chars _ _ H c C)|].
  apply in_app_or in C as [C|[<-|C]]; [exact (item_chars _ _ H c C)|right; right; reflexivity|auto].
Qed.
Lemma v6_chars a x : code_v6_text a x -> forall c, In c a -> v6_char c.
Proof.
  assert (O : forall l v, or_nothing v6_seq l v -> forall c, In c l -> v6_char c).
  { intros l v [[-> _]|H] c C; [destruct C|exact (seq_chars _ _ H c C)]. }
  intros [s y H _|l r vl vr L R _ _|r vr R _] c C.
  - exact (seq_chars _ _ H c C).
  - apply in_app_or in C as [C|[<-|[<-|C]]]; [exact (O _ _ L c C)|right; right; reflexivity|right; right; reflexivity|exact (O _ _ R c C)].
  - destruct C as [<-|[<-|[<-|C]]]; try (right; right; reflexivity). exact (seq_chars _ _ R c C).
Qed.
Lemma v6_char_range c : v6_char c -> 46 <= c <= 102 /\ c <> 47 /\ (c < 59 \/ 65 <= c <= 70 \/ 97 <= c).
Proof. intros [H|[-> | ->]]; [apply hex_range in H|..]; lia. Qed.

Lemma host_silent_ok E h o : snd (host_parse E h o) <> Err EValue -> fst (host_parse E h o) = [] -> exists x, snd (host_parse E h o) = Ok x.
Proof.
  intros L H. destruct h as [|c t]; [eexists; reflexivity|]. destruct (N.eq_dec c 91) as [-> |C].
  - destruct (v6_host_log E t o (fun _ => None)) as [A _]. rewrite H in A. destruct (snd (host_parse E (91 :: t) o)) as [x|[]]; try discriminate A; [eauto|congruence].
  - unfold host_parse in *. apply N.eqb_neq in C. rewrite C in *. destruct o.
    + rewrite fst_wbind in H. rewrite snd_wbind. unfold parse_opaque_host in *. destruct (existsb _ (c :: t)); [discriminate|].
      destruct (is_url_units $"%" [] (c :: t)); [discriminate|]. cbn. eauto.
    + cbv zeta in *. rewrite fst_wbind in H. rewrite snd_wbind. rewrite to_ascii_log in H. destruct (snd (domain_to_ascii E false _)) as [d|]; [|discriminate].
      cbn [app] in H. destruct (existsb _ d); [discriminate|]. destruct (is_ends_in_a_number E d); [|cbn; eauto].
      rewrite fst_wbind in H. rewrite snd_wbind. destruct (snd (ipv4_parse E d)) as [n|e] eqn:Q; [cbn; eauto|].
      apply ipv4_err_log in Q. rewrite app_nil_r in H. contradiction.
Qed.
Lemma v6_host E a o : limit_ok E -> code_v6 a -> fst (host_parse E (91 :: a ++ [93]) o) = [].
Proof.
  intros HE [x H]. apply (code_v6_exact E a x HE) in H. unfold host_parse. change (91 =? 91) with true. cbv iota.
  assert (W : ends_with_char (91 :: a ++ [93]) 93 = true) by (unfold ends_with_char; cbn [rev]; rewrite rev_app_distr; reflexivity).
  rewrite W. rewrite removelast_last. rewrite fst_wbind, H. cbn [wret fst]. rewrite app_nil_r.
  pose proof (single_v6 E a) as S. unfold single in S. rewrite H in S. exact S.
Qed.
Lemma v6_host_inv E t o : limit_ok E -> snd (host_parse E (91 :: t) o) <> Err EValue -> fst (host_parse E (91 :: t) o) = [] -> exists a, t = a ++ [93] /\ code_v6 a.
Proof.
  intros HE L H. destruct (host_silent_ok E (91 :: t) o L H) as [x X]. unfold host_parse in X. change (91 =? 91) with true in X. cbv iota in X.
  destruct (ends_with_char (91 :: t) 93) eqn:W; [|discriminate]. unfold ends_with_char in W. cbn [rev] in W.
  assert (T : exists a, t = a ++ [93]).
  { destruct t as [|c t _] using rev_ind; [discriminate|]. rewrite rev_app_distr in W. cbn [rev app] in W. exists t. do 2 f_equal. lia. }
  destruct T as [a ->]. exists a. split; [reflexivity|]. rewrite removelast_last in X. rewrite snd_wbind in X.
  destruct (snd (ipv6_parse E a)) as [y|] eqn:Q; [|discriminate]. exists y. now apply (code_v6_exact E a y HE).
Qed.
(** the host parser on opaque hosts *)
Lemma opaque_silent E h : h <> [] -> (forall t, h <> 91 :: t) ->
  (fst (host_parse E h true) = [] <-> url_units (fun c => std_url_code_point c = true /\ std_forbidden_host c = false) h).
Proof.
  intros H0 B. rewrite (opaque_host_log E h (fun _ => None) B). destruct h as [|c t]; [congruence|].
  assert (C : c <> 91) by (intros ->; now apply (B t)). rewrite (bare_reports _ c t true C). set (h := c :: t) in *. clearbody h. clear c t B C H0.
  assert (F1 : forall l : log, firstn 1 l = [] <-> l = []) by (intros [|]; cbn; split; congruence). rewrite F1.
  assert (N : existsb std_forbidden_host h = false /\ unit_string h <-> url_units (fun c => std_url_code_point c = true /\ std_forbidden_host c = false) h).
  { split.
    - intros [F U]. revert F. induction U as [|c t A U IH|x y t X Y U IH]; intros F; [apply uu_nil| |].
      + cbn [existsb] in F. apply orb_false_iff in F as [F1' F2]. apply uu_cp; auto.
      + cbn [existsb] in F. rewrite !orb_false_iff in F. apply uu_esc; auto. now apply IH.
    - intros U. split; [|revert U; apply units_impl; now intros c [H _]].
      induction U as [|c t [A F] U IH|x y t X Y U IH]; [reflexivity|cbn [existsb]; now rewrite F, IH|]. cbn [existsb]. rewrite IH.
      assert (Z : forall z, std_hex z <> None -> std_forbidden_host z = false).
      { intros z Hz. apply hex_range in Hz. unfold std_forbidden_host. cbn [one_of existsb]. lia. }
      rewrite (Z x X), (Z y Y). reflexivity. }
  rewrite <- N. destruct (existsb std_forbidden_host h); [split; [discriminate|intros [Q _]; discriminate]|].
  unfold std_opaque_reports. rewrite app_nil_iff, !report_nil. unfold unit_string. rewrite units_none. tauto.
Qed.
Lemma opaque_unit_chars h : url_units (fun c => std_url_code_point c = true /\ std_forbidden_host c = false) h -> forall c, In c h -> std_forbidden_host c = false.
Proof.
  intros U c C. destruct (units_in _ _ U c C) as [[_ H]|[-> |H]]; [exact H|reflexivity|]. apply hex_range in H. unfold std_forbidden_host. cbn [one_of existsb]. lia.
Qed.

(* ---------- ports ---------- *)
Lemma port_digits ps : forallb (fun c => mem c ASCII_DIGITS) ps = forallb std_digit ps.
Proof. induction ps as [|c t IH]; [reflexivity|]. cbn [forallb]. now rewrite digit_eq, IH. Qed.
Lemma port_value E ps : forallb std_digit ps = true -> ps <> [] -> e_int E ps 10 = None \/ e_int E ps 10 = Some (Z.of_N (std_decimal ps)).
Proof.
  intros F N. assert (V : e_int E ps 10 = if too_long E ps then None else Some (Z.of_N (std_decimal ps))).
  { unfold e_int. rewrite (py_int_digits_eq _ _ _ 10 ps (std_decimal ps)); [reflexivity|auto|exact N|now apply decimal_eq]. }
  rewrite V. destruct (too_long E ps); auto.
Qed.
Lemma port_on E sch ps l : port_string ps -> l = [] -> port_log E sch ps l = [].
Proof.
  intros [F V] ->. unfold port_log, flat_port. rewrite port_digits, F. destruct ps as [|c t]; [reflexivity|]. unfold port_errs.
  destruct (port_value E (c :: t) F) as [Q|Q]; [discriminate|now rewrite Q|]. rewrite Q. cbv zeta. rewrite N2Z.id.
  replace (65535 <? std_decimal (c :: t)) with false by lia. reflexivity.
Qed.
Lemma port_inv E sch ps l : flat_port E sch ps <> Err EValue -> port_log E sch ps l = [] -> port_string ps /\ l = [] /\ exists p, flat_port E sch ps = Ok p.
Proof.
  unfold port_log, port_string, flat_port. rewrite port_digits. destruct (forallb std_digit ps) eqn:F; [|discriminate].
  destruct ps as [|c t]; [intros _ H; cbn in *; repeat split; [lia|exact H|eauto]|]. unfold port_errs.
  destruct (port_value E (c :: t) F) as [Q|Q]; [discriminate|rewrite Q; congruence|]. rewrite Q. cbv zeta. rewrite N2Z.id.
  destruct (65535 <? std_decimal (c :: t)) eqn:G; cbn [rep app if_ok]; [discriminate|]. intros _ H. repeat split; [lia|exact H|eauto].
Qed.

(* ---------- after the authority ---------- *)
Definition after_host (s : str) : Prop := exists a t, s = a ++ t /\ (a = [] \/ path_after_host false a) /\ tail_string t.
Lemma path_tail c p : unit_string (c :: p) -> c <> 37 -> unit_string p.
Proof. intros H C. inversion H; subst; [assumption|congruence]. Qed.
Lemma after_host_log sp s : after_host s -> path_log sp s = [].
Proof.
  intros (a & t & -> & A & T). apply path_log_nil. destruct A as [-> |(p & -> & P & _)].
  - exists [], t. split; [reflexivity|split; [apply ps_last, uu_nil|exact T]].
  - exists (47 :: p), t. split; [reflexivity|split; [|exact T]]. apply (ps_more [] p); [apply uu_nil|exact P].
Qed.
Lemma after_host_inv sp s : match s with [] => True | c :: _ => is_slash c || is_qf c = true end -> path_log sp s = [] -> after_host s.
Proof.
  intros S H. apply path_log_nil in H as (p & t & -> & P & T). exists p, t. split; [reflexivity|split; [|exact T]].
  destruct p as [|c p]; [now left|right]. cbn [app] in S. apply path_units in P as [U Q].
  assert (C : c <> 35 /\ c <> 92 /\ 32 < c /\ c <> 91 /\ c <> 93) by (apply (unit_in _ _ U); now left).
  assert (c <> 63) by (intros ->; apply Q; now left). rewrite slash_eq, FlatProofs.qf_eq in S. assert (c = 47) by lia. subst c.
  exists p. split; [reflexivity|split; [|discriminate]]. apply path_units. split; [now apply (path_tail 47)|]. intros I. apply Q. now right.
Qed.
Lemma after_host_stop s : after_host s -> match s with [] => True | c :: _ => (c =? 47) || is_qf c = true end.
Proof.
  intros (a & t & -> & [-> |(p & -> & _)] & T); [|reflexivity]. apply tail_stop in T. destruct t; [exact I|]. cbn [app]. rewrite T. apply orb_true_r.
Qed.

(* ---------- authorities ---------- *)
Lemma at_errs_nil a : at_errs a = [] <-> ~ In 64 a.
Proof.
  induction a as [|c t IH]; [split; auto|]. cbn [at_errs]. rewrite app_nil_iff, IH. destruct (N.eqb_spec c 64) as [-> |C].
  - split; [intros [H _]; discriminate|]. intros H. exfalso. apply H. now left.
  - cbn [rep]. split; [intros [_ H] [I|I]; [congruence|contradiction]|]. intros H. split; [reflexivity|]. intros I. apply H. now right.
Qed.
Lemma port_chars p : optional 58 port_string p -> forall c, In c p -> c = 58 \/ 48 <= c <= 57.
Proof.
  intros [-> |(t & -> & D & _)] c C; [destruct C|]. destruct C as [<-|C]; [now left|right].
  rewrite forallb_forall in D. apply D in C. unfold std_digit in C. lia.
Qed.
Definition inner_char (c : N) : Prop := c <> 47 /\ c <> 63 /\ c <> 35 /\ c <> 92 /\ c <> 64 /\ 32 < c.
Lemma forbidden_inner esc h : domain_chars esc h -> forall c, In c h -> inner_char c /\ c <> 58 /\ c <> 91 /\ c <> 93.
Proof.
  intros [_ H] c C. specialize (H c C). unfold inner_char, std_forbidden_domain, std_forbidden_host in *. cbn [one_of existsb] in H.
  destruct (std_forbidden_domain c) eqn:Q; unfold std_forbidden_domain, std_forbidden_host in Q; cbn [one_of existsb] in Q; [|lia].
  destruct (H Q) as [_ ->]. lia.
Qed.
(** hosts that may be written stand by themselves *)
Definition host_shape (h : str) : Prop :=
  h <> [] /\ (forall c, In c h -> inner_char c) /\
  ((forall c, In c h -> c <> 58 /\ c <> 91 /\ c <> 93) \/ exists a, h = 91 :: a ++ [93] /\ forall c, In c a -> c <> 91 /\ c <> 93).
Lemma v6_shape a : code_v6 a -> host_shape (91 :: a ++ [93]).
Proof.
  intros [x H]. pose proof (v6_chars a x H) as C. split; [discriminate|split].
  - intros c [<-|I]; [unfold inner_char; lia|]. apply in_app_or in I as [I|[<-|[]]]; [|unfold inner_char; lia].
    apply C, v6_char_range in I. unfold inner_char. lia.
  - right. exists a. split; [reflexivity|]. intros c I. apply C, v6_char_range in I. lia.
Qed.
Lemma host_string_shape E h : host_string (code_dom E) code_v6 h -> host_shape h.
Proof.
  intros [[H _]|(a & -> & H)]; [|now apply v6_shape]. pose proof (forbidden_inner _ _ H) as C. split; [apply H|split].
  - intros c I. now apply C in I.
  - left. intros c I. now apply C in I.
Qed.
Lemma opaque_string_shape h : opaque_host_string code_v6 h -> host_shape h.
Proof.
  intros [[H0 H]|(a & -> & H)]; [|now apply v6_shape]. pose proof (opaque_unit_chars h H) as F.
  assert (U : unit_string h) by (revert H; apply units_impl; now intros c [X _]).
  assert (C : forall c, In c h -> inner_char c /\ c <> 58 /\ c <> 91 /\ c <> 93).
  { intros c I. pose proof (unit_in h c U I) as X. apply F in I. unfold std_forbidden_host in I. cbn [one_of existsb] in I. unfold inner_char. lia. }
  split; [exact H0|split; [intros c I; now apply C in I|left; intros c I; now apply C in I]].
Qed.
Lemma shape_cut h p : host_shape h -> optional 58 port_string p -> host_cut false (h ++ p) = (h, match p with [] => None | _ :: ps => Some ps end).
Proof.
  intros (_ & _ & S) P. assert (T : p = [] \/ exists q, p = 58 :: q) by (destruct P as [-> |(t & -> & _)]; eauto).
  destruct S as [S|(a & -> & S)]; [now apply RoundTrip.host_cut_plain|].
  change ((91 :: a ++ [93]) ++ p) with (91 :: (a ++ [93]) ++ p). rewrite <- app_assoc. cbn [app host_cut]. change (91 =? 58) with false. cbn [andb]. change (91 =? 91) with true. cbv iota.
  rewrite RoundTrip.host_cut_in_br by auto. reflexivity.
Qed.
Lemma authority_span sp h p s : host_shape h \/ (h = [] /\ p = []) -> optional 58 port_string p -> after_host s ->
  span (fun c => negb (ends_auth sp c)) (h ++ p ++ s) = (h ++ p, s) /\ ~ In 64 (h ++ p).
Proof.
  intros H P A. assert (I : forall c, In c (h ++ p) -> inner_char c).
  { intros c I. apply in_app_or in I as [I|I]; [|apply (port_chars _ P) in I; unfold inner_char; lia].
    destruct H as [(_ & H & _)|[-> _]]; [auto|destruct I]. }
  split.
  - rewrite app_assoc. apply span_app.
    + apply Forall_forall. intros c Hc. apply I in Hc. unfold inner_char in Hc. rewrite StandardProofs.ends_eq. lia.
    + apply after_host_stop in A. destruct s as [|c s]; [exact Logic.I|]. rewrite FlatProofs.qf_eq in A. rewrite StandardProofs.ends_eq. lia.
  - intros J. apply I in J. unfold inner_char in J. lia.
Qed.

Section Silent.
Context (E : env) (HE : limit_ok E) (enc : str).
(** reported by the host parser: no forbidden code point in the domain *)
Definition shows_forbidden : Prop := forall h, scalar_string h -> h <> [] -> (forall t, h <> 91 :: t) -> fst (host_parse E h false) = [] -> domain_chars true h.

Definition special_rest (rest : str) : Prop :=
  exists h p s, rest = h ++ p ++ s /\ host_string (code_dom E) code_v6 h /\ optional 58 port_string p /\ after_host s.
Definition other_rest (rest : str) : Prop :=
  exists hp s, rest = hp ++ s /\ (hp = [] \/ exists h p, hp = h ++ p /\ opaque_host_string code_v6 h /\ optional 58 port_string p) /\ after_host s.

Lemma special_host h : host_string (code_dom E) code_v6 h -> fst (host_parse E h false) = [].
Proof. intros [[_ H]|(a & -> & H)]; [exact H|now apply v6_host]. Qed.
Lemma opaque_host h : opaque_host_string code_v6 h -> fst (host_parse E h true) = [].
Proof.
  intros [[H0 H]|(a & -> & H)]; [|now apply v6_host]. apply opaque_silent; auto. intros t ->. pose proof (opaque_unit_chars _ H 91 (or_introl eq_refl)) as X. discriminate X.
Qed.
Lemma if_nil {A} (r : res A) (l : log) : l = [] -> if_ok r l = [].
Proof. intros ->. destruct r; reflexivity. Qed.
(** host, port and what follows *)
Lemma host_log_on sch h p s : host_shape h -> optional 58 port_string p -> after_host s ->
  fst (host_parse E h (negb (special_scheme sch))) = [] -> host_log E sch (h ++ p) s = [].
Proof.
  intros S P A F. unfold host_log. cbv zeta. rewrite (shape_cut h p S P).
  assert (H0 : (length h =? 0)%nat = false) by (destruct S as [S _]; destruct h; [congruence|reflexivity]).
  destruct p as [|c ps].
  - rewrite H0, andb_false_r, F. apply if_nil. now apply after_host_log.
  - rewrite H0, F. apply if_nil. apply port_on; [|now apply after_host_log].
    destruct P as [P|(t & Q & P)]; [discriminate|]. now injection Q as _ <-.
Qed.
Lemma special_log sch rest : special_scheme sch = true -> special_rest rest -> authority_log E sch rest = [].
Proof.
  intros SP (h & p & s & -> & H & P & A). unfold authority_log. rewrite SP.
  destruct (authority_span true h p s (or_introl (host_string_shape E h H)) P A) as [-> N].
  apply at_errs_nil in N as N1. rewrite N1. rewrite split_last_none by (apply mem_not_In; exact N). cbn [app].
  apply host_log_on; auto; [now apply (host_string_shape E)|]. rewrite SP. now apply special_host.
Qed.
Lemma other_log sch rest : special_scheme sch = false -> other_rest rest -> authority_log E sch rest = [].
Proof.
  intros SP (hp & s & -> & H & A). unfold authority_log. rewrite SP. destruct H as [-> |(h & p & -> & H & P)].
  - destruct (authority_span false [] [] s (or_intror (conj eq_refl eq_refl)) (or_introl eq_refl) A) as [Q _]. cbn [app] in Q. cbn [app]. rewrite Q.
    cbn [at_errs split_last app]. unfold host_log. rewrite SP. cbn [host_cut andb negb app fst snd host_parse wret if_ok]. now apply after_host_log.
  - rewrite <- app_assoc in *. destruct (authority_span false h p s (or_introl (opaque_string_shape h H)) P A) as [-> N].
    apply at_errs_nil in N as N1. rewrite N1. rewrite split_last_none by (apply mem_not_In; exact N). cbn [app].
    apply host_log_on; auto; [now apply opaque_string_shape|]. rewrite SP. now apply opaque_host.
Qed.
(** the other direction *)
Notation calm r := (r <> Err EValue).
Lemma calm_bind {A B} (m : res A) (f : A -> res B) : calm (rbind m f) -> calm m.
Proof. intros H Q. apply H. rewrite Q. reflexivity. Qed.
Lemma authority_inv u rest : calm (flat_authority E enc u rest) -> authority_log E (scheme u) rest = [] ->
  exists h p s, rest = h ++ p ++ s /\ optional 58 port_string p /\ after_host s /\
    fst (host_parse E h (negb (is_special u))) = [] /\ calm (snd (host_parse E h (negb (is_special u)))) /\ (h = [] -> p = [] /\ is_special u = false).
Proof.
  intros L H. unfold authority_log in H. unfold flat_authority in L. change (special_scheme (scheme u)) with (is_special u) in H. set (sp := is_special u) in *.
  pose proof (span_eq (fun c => negb (ends_auth sp c)) rest) as A. pose proof (span_stop (fun c => negb (ends_auth sp c)) rest) as C.
  destruct (span (fun c => negb (ends_auth sp c)) rest) as [a t]. cbn [fst snd] in *. subst rest.
  apply app_nil_iff in H as [N H]. apply at_errs_nil in N. rewrite split_last_none in H, L by (now apply mem_not_In).
  assert (T : path_log sp t = [] -> after_host t).
  { intros Q. apply (after_host_inv sp); [|exact Q]. destruct t as [|c t]; [exact I|]. apply negb_false_iff in C. rewrite StandardProofs.ends_eq in C.
    rewrite slash_eq, FlatProofs.qf_eq. destruct sp; lia. }
  unfold host_log in H. unfold flat_host in L. cbv zeta in H. change (special_scheme (scheme u)) with sp in H. change (is_not_special u) with (negb sp) in L.
  pose proof (host_cut_eq false a) as Q. destruct (host_cut false a) as [h [ps|]]; cbn [fst snd] in Q; subst a.
  - destruct (length h =? 0)%nat eqn:H0; [discriminate|]. apply app_nil_iff in H as [F H]. pose proof (calm_bind _ _ L) as Lh.
    destruct (host_silent_ok E h _ Lh F) as [x X]. rewrite X in H, L. cbn [if_ok rbind] in H, L. apply calm_bind in L. destruct (port_inv E _ _ _ L H) as (P & H' & _).
    exists h, (58 :: ps), t. rewrite <- app_assoc. split; [reflexivity|]. split; [right; eauto|]. split; [auto|]. split; [exact F|]. split; [exact Lh|]. intros ->. discriminate H0.
  - rewrite app_nil_r in *. fold sp in L. destruct (sp && (length h =? 0)%nat) eqn:H0; [discriminate|]. apply app_nil_iff in H as [F H]. pose proof (calm_bind _ _ L) as Lh.
    destruct (host_silent_ok E h _ Lh F) as [x X]. rewrite X in H. cbn [if_ok] in H.
    exists h, [], t. split; [reflexivity|]. split; [now left|]. split; [auto|]. split; [exact F|]. split; [exact Lh|]. intros ->. split; [reflexivity|]. destruct sp; [discriminate H0|reflexivity].
Qed.
Lemma scalar_app a b : scalar_string (a ++ b) -> scalar_string a /\ scalar_string b.
Proof. intros [P S]. apply Forall_app in P as [P1 P2]. apply Forall_app in S as [S1 S2]. split; split; assumption. Qed.
Lemma host_inv h : shows_forbidden -> scalar_string h -> calm (snd (host_parse E h false)) -> h <> [] -> fst (host_parse E h false) = [] -> host_string (code_dom E) code_v6 h.
Proof.
  intros K Hs L H0 F. destruct h as [|c t]; [congruence|]. destruct (N.eq_dec c 91) as [-> |C].
  - right. destruct (v6_host_inv E t false HE L F) as (a & -> & V). eauto.
  - left. split; [|exact F]. apply K; auto. intros t' Q. injection Q as Q _. contradiction.
Qed.
Lemma special_log_inv u rest : shows_forbidden -> scalar_string rest -> is_special u = true -> calm (flat_authority E enc u rest) -> authority_log E (scheme u) rest = [] -> special_rest rest.
Proof.
  intros K Hs SP L H. destruct (authority_inv u rest L H) as (h & p & s & -> & P & A & F & Lh & H0). rewrite SP in F, H0, Lh. cbn [negb] in F, Lh.
  exists h, p, s. split; [reflexivity|]. split; [|auto]. apply host_inv; auto; [apply (scalar_app _ _ Hs)|]. intros ->. now destruct H0.
Qed.
Lemma other_log_inv u rest : is_special u = false -> calm (flat_authority E enc u rest) -> authority_log E (scheme u) rest = [] -> other_rest rest.
Proof.
  intros SP L H. destruct (authority_inv u rest L H) as (h & p & s & -> & P & A & F & Lh & H0). rewrite SP in F, H0, Lh. cbn [negb] in F, Lh.
  exists (h ++ p), s. rewrite <- app_assoc. split; [reflexivity|]. split; [|exact A]. destruct h as [|c t]; [left; destruct (H0 eq_refl) as [-> _]; reflexivity|].
  right. exists (c :: t), p. split; [reflexivity|]. split; [|exact P]. destruct (N.eq_dec c 91) as [-> |C].
  - right. destruct (v6_host_inv E t true HE Lh F) as (a & -> & V). eauto.
  - left. split; [discriminate|]. apply (opaque_silent E); [discriminate|congruence|exact F].
Qed.

(* ---------- file hosts ---------- *)
Definition file_rest (rest : str) : Prop :=
  exists h s, rest = h ++ s /\ (host_string (code_dom E) code_v6 h \/ h = []) /\ after_host s.
Lemma host_string_ends h : host_string (code_dom E) code_v6 h -> h <> [] /\ Forall (fun c => negb (mem c $"/\?#") = true) h /\ is_windows_drive_letter h = false.
Proof.
  intros H. pose proof (host_string_shape E h H) as (H0 & C & S). split; [exact H0|]. split.
  - apply Forall_forall. intros c I. apply C in I. unfold inner_char in I. change (mem c $"/\?#") with (mem c [47; 92; 63; 35]). cbn [mem existsb]. lia.
  - rewrite any_drive_eq. destruct h as [|x [|y [|z h]]]; try reflexivity. cbn [std_any_drive_letter].
    destruct H as [[[_ H] _]|(a & Q & _)].
    + destruct (std_alpha x); [|reflexivity]. cbn [andb]. specialize (H y ltac:(right; now left)). destruct ((y =? 58) || (y =? 124)) eqn:Y; [|reflexivity].
      exfalso. assert (y = 58 \/ y = 124) as [-> | ->] by lia; destruct (H eq_refl); discriminate.
    + injection Q as -> _. reflexivity.
Qed.
Lemma file_host_on rest : file_rest rest -> file_host_log E rest = [].
Proof.
  intros (h & s & -> & H & A). unfold file_host_log.
  assert (ST : match s with [] => True | c :: _ => negb (mem c $"/\?#") = false end).
  { apply after_host_stop in A. destruct s as [|c s]; [exact I|]. rewrite FlatProofs.qf_eq in A. change (mem c $"/\?#") with (mem c [47; 92; 63; 35]). cbn [mem existsb]. lia. }
  destruct H as [H| ->].
  - destruct (host_string_ends h H) as (H0 & F & D). rewrite span_app by auto. unfold file_host_errs. rewrite D. destruct h as [|c h]; [congruence|].
    cbn [negb]. rewrite (special_host _ H). apply if_nil. now apply after_host_log.
  - rewrite span_app by auto. cbn [file_host_errs]. change (is_windows_drive_letter []) with false. cbn [app]. now apply after_host_log.
Qed.
Lemma file_host_inv rest : shows_forbidden -> scalar_string rest -> calm (flat_file_host E enc file_url rest) -> file_host_log E rest = [] -> file_rest rest.
Proof.
  intros K Hs L H. unfold file_host_log in H. unfold flat_file_host in L. change (is_not_special file_url) with false in L.
  pose proof (span_eq (fun c => negb (mem c $"/\?#")) rest) as A. pose proof (span_stop (fun c => negb (mem c $"/\?#")) rest) as C.
  destruct (span (fun c => negb (mem c $"/\?#")) rest) as [h t]. cbn [fst snd] in *. subst rest.
  assert (T : path_log true t = [] -> after_host t).
  { intros Q. apply (after_host_inv true); [|exact Q]. destruct t as [|c t]; [exact I|]. change (mem c $"/\?#") with (mem c [47; 92; 63; 35]) in C. cbn [mem existsb] in C.
    rewrite slash_eq, FlatProofs.qf_eq. lia. }
  apply app_nil_iff in H as [F H]. unfold file_host_errs in F. destruct (is_windows_drive_letter h); [discriminate|]. exists h, t. split; [reflexivity|].
  destruct h as [|c h]; [auto|]. apply calm_bind in L. apply scalar_app in Hs as [Hs _]. cbn [negb] in F. destruct (host_silent_ok E _ _ L F) as [x X]. rewrite X in H. cbn [if_ok] in H.
  split; [|auto]. left. apply host_inv; auto. discriminate.
Qed.

(* ---------- schemes ---------- *)
Lemma scheme_split_iff s sch x : scheme_split s = Some (sch, x) <-> s = sch ++ 58 :: x /\ std_scheme sch = true.
Proof.
  split.
  - destruct s as [|c s]; [discriminate|]. cbn [scheme_split]. rewrite alpha_eq. destruct (std_alpha c) eqn:A; [|discriminate].
    pose proof (span_eq is_scheme_char s) as Q. pose proof (LoopProofs.span_all is_scheme_char s) as F. destruct (span is_scheme_char s) as [a [|y r]]; [discriminate|]. cbn [fst snd] in *.
    destruct (y =? 58) eqn:Y; [|discriminate]. intros H. injection H as <- <-. apply N.eqb_eq in Y as ->. split; [cbn [app]; now rewrite Q|].
    cbn [std_scheme]. rewrite A. cbn [andb]. apply forallb_forall. rewrite Forall_forall in F. intros z Z. rewrite <- scheme_char_eq. auto.
  - intros [-> H]. destruct sch as [|c t]; [discriminate|]. cbn [std_scheme] in H. apply andb_true_iff in H as [A F]. cbn [app scheme_split]. rewrite alpha_eq, A.
    rewrite span_app; [reflexivity| |reflexivity]. apply Forall_forall. rewrite forallb_forall in F. intros z Z. rewrite scheme_char_eq. auto.
Qed.
Lemma scheme_split_none s : scheme_split s = None <-> scheme_less s.
Proof.
  split.
  - intros H sch t ->. destruct (std_scheme sch) eqn:Q; [|reflexivity]. assert (X : scheme_split (sch ++ 58 :: t) = Some (sch, t)) by (now apply scheme_split_iff). congruence.
  - intros H. destruct (scheme_split s) as [[sch t]|] eqn:Q; [|reflexivity]. apply scheme_split_iff in Q as [-> Q]. rewrite (H sch t eq_refl) in Q. discriminate.
Qed.
(** a tail does not matter *)
Lemma scheme_less_app r t : tail_string t -> (scheme_less (r ++ t) <-> scheme_less r).
Proof.
  intros T. apply tail_stop in T. split; intros H sch x Q.
  - apply (H sch (x ++ t)). rewrite Q, <- app_assoc. reflexivity.
  - destruct (std_scheme sch) eqn:S; [|reflexivity].
    assert (C : forall c, In c sch -> is_qf c = false).
    { intros c Hc. destruct sch as [|d sch]; [destruct Hc|]. cbn [std_scheme] in S. apply andb_true_iff in S as [A F]. rewrite FlatProofs.qf_eq.
      destruct Hc as [<-|Hc]; [unfold std_alpha in A; lia|]. rewrite forallb_forall in F. apply F in Hc. unfold std_scheme_char, std_alpha, std_digit in Hc. lia. }
    assert (X : exists y, r = sch ++ 58 :: y).
    { clear S H. revert r Q. induction sch as [|d sch IH]; intros r Q; cbn [app] in Q.
      - destruct r as [|e r]; [cbn [app] in Q; subst t; discriminate|]. injection Q as -> _. exists r. reflexivity.
      - destruct r as [|e r]; [cbn [app] in Q; subst t; rewrite (C d (or_introl eq_refl)) in T; discriminate|]. injection Q as -> Q.
        destruct (IH ltac:(intros c I; apply C; now right) r Q) as [y ->]. exists y. reflexivity. }
    destruct X as [y X]. rewrite (H sch y X) in S. discriminate.
Qed.

(* ---------- bodies with their tails ---------- *)
Definition then_tail (P : str -> Prop) (x : str) : Prop := exists r t, x = r ++ t /\ P r /\ tail_string t.
Let D := code_dom E.
Let V := code_v6.
Definition after (P : str -> Prop) (x : str) : Prop := exists rest, x = 47 :: 47 :: rest /\ P rest.
Lemma tail_special x : then_tail (scheme_relative_special false D V) x <-> after special_rest x.
Proof.
  split.
  - intros (r & t & -> & (h & p & a & -> & H & P & A) & T). exists (h ++ p ++ a ++ t). split; [cbn [app]; now rewrite <- !app_assoc|].
    exists h, p, (a ++ t). split; [reflexivity|]. split; [exact H|]. split; [exact P|]. exists a, t. auto.
  - intros (rest & -> & h & p & s & -> & H & P & a & t & -> & A & T). exists ([47; 47] ++ h ++ p ++ a), t. split; [cbn [app]; now rewrite <- !app_assoc|].
    split; [|exact T]. exists h, p, a. auto.
Qed.
Lemma tail_other x : then_tail (scheme_relative false V) x <-> after other_rest x.
Proof.
  split.
  - intros (r & t & -> & (hp & a & -> & H & A) & T). exists (hp ++ a ++ t). split; [cbn [app]; now rewrite <- !app_assoc|].
    exists hp, (a ++ t). split; [reflexivity|]. split; [exact H|]. exists a, t. auto.
  - intros (rest & -> & hp & s & -> & H & a & t & -> & A & T). exists ([47; 47] ++ hp ++ a), t. split; [cbn [app]; now rewrite <- !app_assoc|].
    split; [|exact T]. exists hp, a. auto.
Qed.
Lemma tail_file x : then_tail (scheme_relative_file false D V) x <-> after file_rest x.
Proof.
  split.
  - intros (r & t & -> & (h & a & -> & H) & T). exists (h ++ a ++ t). split; [cbn [app]; now rewrite <- !app_assoc|].
    exists h, (a ++ t). split; [reflexivity|]. destruct H as [(H & A & _)|(-> & A)].
    + split; [now left|]. exists a, t. auto.
    + split; [now right|]. exists a, t. split; [reflexivity|]. split; [|exact T]. destruct A as [[_ A]|A]; auto.
  - intros (rest & -> & h & s & -> & H & a & t & -> & A & T). exists ([47; 47] ++ h ++ a), t. split; [cbn [app]; now rewrite <- !app_assoc|].
    split; [|exact T]. exists h, a. split; [reflexivity|]. destruct H as [H| ->]; [left|right].
    + split; [exact H|]. split; [exact A|]. intros Q. discriminate.
    + split; [reflexivity|]. destruct A as [A|A]; auto.
Qed.
Lemma tail_relative x : then_tail path_relative x <-> no_slash x /\ path_log false x = [].
Proof.
  rewrite path_log_nil. split.
  - intros (r & t & -> & (P & Q) & T). split; [|eauto]. intros z Z. destruct r as [|c r]; cbn [app] in Z.
    + subst t. apply tail_stop in T. discriminate T.
    + injection Z as -> _. now apply (Q r).
  - intros (Q & r & t & -> & P & T). exists r, t. split; [reflexivity|]. split; [|exact T]. split; [exact P|]. intros z ->. now apply (Q (z ++ t)).
Qed.
Lemma path_log_any sp x : path_log sp x = [] <-> path_log false x = [].
Proof. now rewrite !path_log_nil. Qed.
Lemma tail_absolute x : then_tail path_absolute x <-> exists y, x = 47 :: y /\ no_slash y /\ path_log false y = [].
Proof.
  split.
  - intros (r & t & -> & (p & -> & P) & T). exists (p ++ t). split; [reflexivity|]. apply tail_relative. exists p, t. auto.
  - intros (y & -> & H). apply tail_relative in H as (r & t & -> & P & T). exists (47 :: r), t. split; [reflexivity|]. split; [|exact T]. exists r. auto.
Qed.
Lemma no_slash_cons c t : no_slash (c :: t) <-> c <> 47.
Proof. split; [intros H ->; now apply (H t)|]. intros H z Z. congruence. Qed.
Lemma path_log_back y : path_log true (92 :: y) <> [].
Proof. rewrite path_log_cons. cbn. discriminate. Qed.
Lemma path_log_slash_only sp c t : path_log sp (c :: t) = [] -> c <> 92.
Proof.
  intros H ->. apply path_log_any in H. rewrite path_log_cons in H. change (92 =? 63) with false in H. change (92 =? 35) with false in H. cbn [andb orb N.eqb Pos.eqb] in H.
  rewrite unit_eq in H. discriminate H.
Qed.
(** special authorities *)
Lemma special_start rest : special_rest rest -> match rest with c :: _ => is_slash c = false | [] => True end.
Proof.
  intros (h & p & s & -> & H & _). pose proof (host_string_shape E h H) as (H0 & C & _). destruct h as [|c h]; [congruence|]. cbn [app].
  specialize (C c (or_introl eq_refl)). unfold inner_char in C. rewrite slash_eq. lia.
Qed.
Lemma ignore_on sch rest : special_scheme sch = true -> special_rest rest -> ignore_log E sch rest = [].
Proof.
  intros SP H. unfold ignore_log. pose proof (special_start rest H) as S. assert (X : slash_errs rest = [] /\ drop_while is_slash rest = rest).
  { destruct rest as [|c t]; [split; reflexivity|]. cbn [slash_errs drop_while]. rewrite S. auto. }
  destruct X as [-> ->]. cbn [app]. now apply special_log.
Qed.
Lemma ignore_inv u rest : shows_forbidden -> scalar_string rest -> is_special u = true -> calm (flat_authority E enc u (drop_while is_slash rest)) -> ignore_log E (scheme u) rest = [] -> special_rest rest.
Proof.
  intros K Hs SP L H. unfold ignore_log in H. apply app_nil_iff in H as [S H]. assert (X : drop_while is_slash rest = rest).
  { destruct rest as [|c t]; [reflexivity|]. cbn [slash_errs drop_while] in *. destruct (is_slash c); [discriminate|reflexivity]. }
  rewrite X in H, L. now apply (special_log_inv u).
Qed.
Lemma scalar_cons c x : scalar_string (c :: x) -> scalar_string x.
Proof. intros [P S]. inversion P. inversion S. split; assumption. Qed.
Lemma starts2 t : starts_with $"//" t = true <-> exists r, t = 47 :: 47 :: r.
Proof.
  change ($"//") with [47; 47]. destruct t as [|a [|b r]]; cbn [starts_with].
  - split; [discriminate|intros [r H]; discriminate].
  - rewrite andb_false_r. split; [discriminate|intros [r H]; discriminate].
  - rewrite andb_true_r. split.
    + intros H. exists r. f_equal; [lia|f_equal; lia].
    + intros [r' H]. injection H as -> -> _. reflexivity.
Qed.

(* ---------- the whole input ---------- *)
Definition abs_body (sch x : str) : Prop :=
  (sch = $"file" /\ after file_rest x) \/ (std_special sch /\ sch <> $"file" /\ after special_rest x) \/
  (~ std_special sch /\ (after other_rest x \/ then_tail path_absolute x \/ then_tail path_relative x)).
Lemma not_special sch : ~ std_special sch <-> special_scheme sch = false.
Proof. rewrite <- UrlProps.special_spec. destruct (special_scheme sch); split; congruence. Qed.
Lemma special_file : std_special $"file". Proof. apply UrlProps.special_spec. reflexivity. Qed.
Lemma file_after base rest : file_log E base (47 :: 47 :: rest) = file_host_log E rest.
Proof. reflexivity. Qed.
Lemma scheme_on base sch x : abs_body sch x -> scheme_log E base sch x = [].
Proof.
  intros H. unfold scheme_log. destruct H as [(-> & r & -> & H)|[(S & F & r & -> & H)|(S & H)]].
  - change (str_eqb $"file" $"file") with true. cbv iota. assert (W : starts_with $"//" (47 :: 47 :: r) = true) by (apply starts2; eauto). rewrite W. cbn [negb rep app].
    rewrite file_after. now apply file_host_on.
  - apply str_eqb_neq in F. rewrite F. apply UrlProps.special_spec in S. rewrite S. assert (W : starts_with $"//" (47 :: 47 :: r) = true) by (apply starts2; eauto). rewrite W.
    cbn [skipn]. now apply ignore_on.
  - apply not_special in S. assert (F : str_eqb sch $"file" = false).
    { apply str_eqb_neq. intros ->. discriminate S. }
    rewrite F, S. destruct H as [(r & -> & H)|[H|H]].
    + change (47 =? 47) with true. cbv iota. now apply other_log.
    + apply tail_absolute in H as (y & -> & N & P). change (47 =? 47) with true. cbv iota. destruct y as [|d y]; [reflexivity|].
      apply no_slash_cons, N.eqb_neq in N. rewrite N. exact P.
    + apply tail_relative in H as (N & P). destruct x as [|c t]; [reflexivity|]. apply no_slash_cons, N.eqb_neq in N. rewrite N. now apply opaque_log_nil.
Qed.
Lemma scheme_inv base sch x : shows_forbidden -> scalar_string x -> calm (flat_scheme E base enc sch x) -> scheme_log E base sch x = [] -> abs_body sch x.
Proof.
  intros K Hs L H. unfold scheme_log in H. unfold flat_scheme in L. cbv zeta in L. destruct (str_eqb sch $"file") eqn:F.
  - left. apply str_eqb_eq in F. split; [exact F|]. apply app_nil_iff in H as [W H]. destruct (starts_with $"//" x) eqn:W'; [|discriminate]. apply starts2 in W' as [r ->].
    rewrite file_after in H. exists r. split; [reflexivity|]. apply file_host_inv; auto. now apply scalar_cons, scalar_cons in Hs.
  - apply str_eqb_neq in F. destruct (special_scheme sch) eqn:S.
    + right; left. split; [now apply UrlProps.special_spec|]. split; [exact F|]. destruct (starts_with $"//" x) eqn:W'; [|discriminate]. apply starts2 in W' as [r ->]. cbn [skipn] in H.
      exists r. split; [reflexivity|]. assert (L' : calm (flat_authority E enc (set_scheme sch new_url) (drop_while is_slash r))).
      { destruct base as [b|]; [|exact L]. rewrite andb_false_r in L. exact L. }
      apply (ignore_inv (set_scheme sch new_url)); auto. now apply scalar_cons, scalar_cons in Hs.
    + right; right. split; [now apply not_special|]. destruct x as [|c r].
      * right; right. apply tail_relative. split; [intros z Z; discriminate|reflexivity].
      * destruct (N.eqb_spec c 47) as [-> |C].
        -- destruct r as [|d r].
           ++ right; left. apply tail_absolute. exists []. split; [reflexivity|]. split; [intros z Z; discriminate|reflexivity].
           ++ destruct (N.eqb_spec d 47) as [-> |C].
              ** left. exists r. split; [reflexivity|]. now apply (other_log_inv (set_scheme sch new_url)).
              ** right; left. apply tail_absolute. exists (d :: r). split; [reflexivity|]. split; [now apply no_slash_cons|exact H].
        -- right; right. apply tail_relative. split; [now apply no_slash_cons|now apply opaque_log_nil].
Qed.
Definition rel_body (b : urlrec) (x : str) : Prop :=
  then_tail path_relative x \/ then_tail path_absolute x \/
  (scheme b = $"file" /\ after file_rest x) \/ (std_special (scheme b) /\ scheme b <> $"file" /\ after special_rest x) \/
  (~ std_special (scheme b) /\ after other_rest x).
Lemma drive_scheme x : scheme_less x -> path_log false x = [] -> starts_with_windows_drive_letter x = false.
Proof.
  intros S P. rewrite starts_drive_eq. destruct x as [|a [|b t]]; try reflexivity. cbn [std_starts_drive_letter std_any_drive_letter].
  destruct (std_alpha a) eqn:A; [|reflexivity]. cbn [andb]. destruct (N.eqb_spec b 58) as [-> |B].
  - exfalso. pose proof (S [a] t eq_refl) as X. cbn [std_scheme forallb] in X. rewrite A in X. discriminate.
  - destruct (N.eqb_spec b 124) as [-> |C]; [|reflexivity]. exfalso. rewrite path_log_cons in P. replace (a =? 63) with false in P by (unfold std_alpha in A; lia).
    replace (a =? 35) with false in P by (unfold std_alpha in A; lia). replace (a =? 47) with false in P by (unfold std_alpha in A; lia). cbn [andb orb] in P.
    apply app_nil_iff in P as [_ P]. rewrite path_log_cons in P. cbn [N.eqb Pos.eqb andb orb] in P. apply app_nil_iff in P as [P _]. rewrite unit_eq in P. discriminate P.
Qed.
Lemma no_scheme_on b x : has_opaque_path b = false -> scheme_less x -> rel_body b x -> no_scheme_log E (Some b) x = [].
Proof.
  intros HO SL H. unfold no_scheme_log. rewrite HO. destruct (str_eqb (scheme b) $"file") eqn:F.
  - apply str_eqb_eq in F. destruct H as [H|[H|[(_ & r & -> & H)|[(_ & N & _)|(N & _)]]]]; [| | |contradiction|rewrite F in N; exfalso; apply N, special_file].
    + apply tail_relative in H as (N & P). destruct x as [|c t]; [reflexivity|]. unfold file_log. pose proof (path_log_slash_only _ _ _ P) as B.
      apply no_slash_cons in N. rewrite slash_eq. replace ((c =? 47) || (c =? 92)) with false by lia. rewrite (drive_scheme _ SL P), andb_false_r. cbn [rep app]. now apply path_log_any.
    + apply tail_absolute in H as (y & -> & N & P). unfold file_log. change (is_slash 47) with true. cbv iota. cbn [N.eqb Pos.eqb rep app]. unfold file_slash_log.
      destruct y as [|c t]; [reflexivity|]. pose proof (path_log_slash_only _ _ _ P) as B. apply no_slash_cons in N. rewrite slash_eq. replace ((c =? 47) || (c =? 92)) with false by lia. now apply path_log_any.
    + rewrite file_after. now apply file_host_on.
  - apply str_eqb_neq in F. destruct H as [H|[H|[(N & _)|[(S & _ & r & -> & H)|(S & r & -> & H)]]]]; [| |contradiction| |].
    + apply tail_relative in H as (N & P). destruct x as [|c t]; [reflexivity|]. unfold relative_log. pose proof (path_log_slash_only _ _ _ P) as B. apply no_slash_cons in N.
      replace ((c =? 47) || (special_scheme (scheme b) && (c =? 92))) with false by lia. now apply path_log_any.
    + apply tail_absolute in H as (y & -> & N & P). unfold relative_log. change (47 =? 47) with true. cbn [orb N.eqb Pos.eqb rep app]. unfold relative_slash_log.
      destruct y as [|c t]; [reflexivity|]. pose proof (path_log_slash_only _ _ _ P) as B. apply no_slash_cons in N. rewrite slash_eq. replace ((c =? 47) || (c =? 92)) with false by lia.
      rewrite andb_false_r. apply N.eqb_neq in N. rewrite N. now apply path_log_any.
    + apply UrlProps.special_spec in S. unfold relative_log. change (47 =? 47) with true. cbn [orb N.eqb Pos.eqb rep app]. unfold relative_slash_log. rewrite S. change (is_slash 47) with true. cbn [andb N.eqb Pos.eqb rep app].
      now apply ignore_on.
    + apply not_special in S. unfold relative_log. change (47 =? 47) with true. cbn [orb N.eqb Pos.eqb rep app]. unfold relative_slash_log. rewrite S. cbn [andb]. change (47 =? 47) with true. cbv iota.
      now apply other_log.
Qed.
Lemma no_scheme_inv b x : has_opaque_path b = false -> shows_forbidden -> scalar_string x -> calm (flat_no_scheme E (Some b) enc x) -> no_scheme_log E (Some b) x = [] -> rel_body b x.
Proof.
  intros HO K Hs L H. unfold no_scheme_log in H. unfold flat_no_scheme in L. rewrite HO in H, L. unfold rel_body.
  destruct x as [|c t]; [left; apply tail_relative; split; [intros z Z; discriminate|reflexivity]|].
  destruct (str_eqb (scheme b) $"file") eqn:F.
  - apply str_eqb_eq in F. unfold file_log in H. rewrite slash_eq in H. destruct ((c =? 47) || (c =? 92)) eqn:C.
    + apply app_nil_iff in H as [B H]. assert (c = 47) by (destruct (N.eqb_spec c 92); [discriminate|lia]). subst c. clear B C. unfold file_slash_log in H.
      destruct t as [|d t]; [right; left; apply tail_absolute; exists []; split; [reflexivity|split; [intros z Z; discriminate|reflexivity]]|].
      rewrite slash_eq in H. destruct ((d =? 47) || (d =? 92)) eqn:C.
      * apply app_nil_iff in H as [B H]. assert (d = 47) by (destruct (N.eqb_spec d 92); [discriminate|lia]). subst d. right; right; left. split; [exact F|]. exists t. split; [reflexivity|].
        apply file_host_inv; auto. now apply scalar_cons, scalar_cons in Hs.
      * right; left. apply tail_absolute. exists (d :: t). split; [reflexivity|]. split; [apply no_slash_cons; lia|now apply path_log_any in H].
    + apply app_nil_iff in H as [_ H]. left. apply tail_relative. split; [apply no_slash_cons; lia|now apply path_log_any in H].
  - apply str_eqb_neq in F. unfold relative_log in H. destruct ((c =? 47) || (special_scheme (scheme b) && (c =? 92))) eqn:C.
    + apply app_nil_iff in H as [B H]. assert (c = 47) by (destruct (N.eqb_spec c 92); [discriminate|]; destruct (special_scheme (scheme b)); cbn [andb] in C; lia). subst c. clear B C. unfold relative_slash_log in H.
      destruct t as [|d t]; [right; left; apply tail_absolute; exists []; split; [reflexivity|split; [intros z Z; discriminate|reflexivity]]|].
      rewrite slash_eq in H. destruct (special_scheme (scheme b)) eqn:S; cbn [andb] in H.
      * destruct ((d =? 47) || (d =? 92)) eqn:C.
        -- apply app_nil_iff in H as [B H]. assert (d = 47) by (destruct (N.eqb_spec d 92); [discriminate|lia]). subst d. right; right; right; left. split; [now apply UrlProps.special_spec|]. split; [exact F|].
           exists t. split; [reflexivity|]. apply (ignore_inv (set_scheme (scheme b) new_url)); auto; [now apply scalar_cons, scalar_cons in Hs|].
           unfold flat_relative in L. cbv zeta in L. change (is_special (set_scheme (scheme b) new_url)) with (special_scheme (scheme b)) in L. change (47 =? 47) with true in L. cbn [orb] in L.
           unfold flat_relative_slash in L. change (is_special (set_scheme (scheme b) new_url)) with (special_scheme (scheme b)) in L. rewrite S in L. exact L.
        -- replace (d =? 47) with false in H by lia. right; left. apply tail_absolute. exists (d :: t). split; [reflexivity|]. split; [apply no_slash_cons; lia|now apply path_log_any in H].
      * destruct (N.eqb_spec d 47) as [-> |C].
        -- right; right; right; right. split; [now apply not_special|]. exists t. split; [reflexivity|]. apply (other_log_inv (set_scheme (scheme b) new_url)); auto.
           unfold flat_relative in L. cbv zeta in L. change (47 =? 47) with true in L. cbn [orb] in L.
           unfold flat_relative_slash in L. change (is_special (set_scheme (scheme b) new_url)) with (special_scheme (scheme b)) in L. rewrite S in L. exact L.
        -- right; left. apply tail_absolute. exists (d :: t). split; [reflexivity|]. split; [now apply no_slash_cons|exact H].
    + left. apply tail_relative. split; [apply no_slash_cons; lia|now apply path_log_any in H].
Qed.
Lemma absolute_iff s : (exists r f, s = r ++ f /\ optional 35 unit_string f /\ absolute_url false D V r) <->
  exists sch x, s = sch ++ 58 :: x /\ std_scheme sch = true /\ abs_body (std_lower sch) x.
Proof.
  split.
  - intros (r0 & f & -> & Ff & sch & r & q & -> & S & Q & H). exists sch, (r ++ q ++ f).
    split; [cbn [app]; rewrite <- app_assoc; cbn [app]; now rewrite <- app_assoc|]. split; [exact S|].
    assert (T : tail_string (q ++ f)) by (exists q, f; auto). unfold abs_body. rewrite <- tail_special, <- tail_file, <- tail_other.
    destruct H as [(F & H)|[(P & F & H)|(P & [H|[H|(H & _)]])]].
    + left. split; [exact F|]. exists r, (q ++ f). auto.
    + right; left. split; [exact P|]. split; [exact F|]. exists r, (q ++ f). auto.
    + right; right. split; [exact P|]. left. exists r, (q ++ f). auto.
    + right; right. split; [exact P|]. right; left. exists r, (q ++ f). auto.
    + right; right. split; [exact P|]. right; right. exists r, (q ++ f). auto.
  - intros (sch & x & -> & S & H). unfold abs_body in H. rewrite <- tail_special, <- tail_file, <- tail_other in H.
    destruct H as [(F & r & t & -> & H & q & f & -> & Q & G)|[(P & F & r & t & -> & H & q & f & -> & Q & G)|(P & [(r & t & -> & H & q & f & -> & Q & G)|[(r & t & -> & H & q & f & -> & Q & G)|(r & t & -> & H & q & f & -> & Q & G)]])]];
      exists (sch ++ [58] ++ r ++ q), f; (split; [cbn [app]; rewrite <- app_assoc; cbn [app]; now rewrite <- app_assoc|]); (split; [exact G|]); exists sch, r, q; (split; [reflexivity|]); (split; [exact S|]); (split; [exact Q|]).
    + left. auto.
    + right; left. auto.
    + right; right. auto.
    + right; right. auto.
    + right; right. split; [exact P|]. right; right. split; [exact H|]. intros Z. discriminate.
Qed.
Lemma slash_less x : scheme_less (47 :: x).
Proof.
  intros sch t Q. destruct sch as [|c sch]; [discriminate Q|]. injection Q as <- _. reflexivity.
Qed.
Lemma relative_iff b s : (exists r f, s = r ++ f /\ optional 35 unit_string f /\ relative_url false D V b r) <-> scheme_less s /\ rel_body b s.
Proof.
  split.
  - intros (r0 & f & -> & Ff & r & q & -> & Q & H). rewrite <- app_assoc.
    assert (T : tail_string (q ++ f)) by (exists q, f; auto). unfold rel_body. rewrite <- tail_special, <- tail_file, <- tail_other.
    assert (X : forall P : str -> Prop, P r -> then_tail P (r ++ q ++ f)) by (intros P Z; exists r, (q ++ f); auto).
    assert (Y : (scheme_less r -> scheme_less (r ++ q ++ f))) by now apply scheme_less_app.
    assert (A : path_absolute r -> scheme_less r) by (intros (p & -> & _); apply slash_less).
    destruct H as [(H & L)|[(F & [H|(H & _)])|[(P & F & [H|H])|(P & [H|H])]]].
    + split; auto.
    + split; [|right; right; left; auto]. apply Y. destruct H as (h & a & -> & _). apply slash_less.
    + split; auto.
    + split; [|right; right; right; left; auto]. apply Y. destruct H as (h & p & a & -> & _). apply slash_less.
    + split; auto.
    + split; [|right; right; right; right; auto]. apply Y. destruct H as (h & a & -> & _). apply slash_less.
    + split; auto.
  - intros (L & H). unfold rel_body in H. rewrite <- tail_special, <- tail_file, <- tail_other in H.
    assert (X : forall P : str -> Prop, then_tail P s -> (forall r, P r -> (scheme_less s -> scheme_less r) ->
      ((path_relative r /\ scheme_less r) \/
     (scheme b = $"file" /\
      (scheme_relative_file false D V r \/ (path_absolute r /\ (uhost b <> Some (HStr []) -> non_windows false r)))) \/
     (std_special (scheme b) /\ scheme b <> $"file" /\ (scheme_relative_special false D V r \/ path_absolute r)) \/
     (~ std_special (scheme b) /\ (scheme_relative false V r \/ path_absolute r)))) -> exists r f, s = r ++ f /\ optional 35 unit_string f /\ relative_url false D V b r).
    { intros P (r & t & -> & Hr & q & f & -> & Q & G) Z. exists (r ++ q), f. split; [now rewrite <- app_assoc|]. split; [exact G|]. exists r, q. split; [reflexivity|]. split; [exact Q|].
      apply Z; [exact Hr|]. intros W. apply scheme_less_app in W; [exact W|]. exists q, f. auto. }
    assert (Sp : std_special (scheme b) \/ ~ std_special (scheme b)).
    { destruct (special_scheme (scheme b)) eqn:S; [left; now apply UrlProps.special_spec|right; now apply not_special]. }
    assert (Fi : scheme b = $"file" \/ scheme b <> $"file").
    { destruct (str_eqb (scheme b) $"file") eqn:S; [left; now apply str_eqb_eq in S|right; now apply str_eqb_neq in S]. }
    destruct H as [H|[H|[(F & H)|[(P & F & H)|(P & H)]]]]; apply (X _ H); intros r Hr W.
    + left. auto.
    + destruct Fi as [F|F]; [right; left; split; [exact F|]; right; split; [exact Hr|]; intros _ Z; discriminate Z|].
      destruct Sp as [P|P]; [right; right; left; auto|right; right; right; auto].
    + right; left. auto.
    + right; right; left. auto.
    + right; right; right. auto.
Qed.
Lemma opaque_base b x : has_opaque_path b = true -> scheme_less x ->
  (no_scheme_log E (Some b) x = [] <-> exists f, x = f /\ optional 35 unit_string f /\ f <> []).
Proof.
  intros O L. unfold no_scheme_log. rewrite O. split.
  - destruct x as [|c f]; [discriminate|]. destruct (N.eqb_spec c 35) as [-> |C]; [|discriminate]. intros H. apply frag_nil in H. exists (35 :: f).
    split; [reflexivity|]. split; [right; eauto|discriminate].
  - intros (f & -> & [-> |(t & -> & H)] & N); [congruence|]. change (35 =? 35) with true. cbv iota. now apply frag_nil.
Qed.
Lemma main_on base s : url_string false D V base s -> main_log E base s = [].
Proof.
  intros (r & f & -> & Ff & H). unfold main_log. destruct H as [H|(b & -> & H & O)].
  - assert (X : exists r0 f0, r ++ f = r0 ++ f0 /\ optional 35 unit_string f0 /\ absolute_url false D V r0) by eauto.
    apply absolute_iff in X as (sch & x & Q & S & B). assert (W : scheme_split (r ++ f) = Some (sch, x)) by (apply scheme_split_iff; auto).
    rewrite W, UrlProps.lower_std. now apply scheme_on.
  - assert (X : exists r0 f0, r ++ f = r0 ++ f0 /\ optional 35 unit_string f0 /\ relative_url false D V b r0) by eauto.
    apply relative_iff in X as (S & B). pose proof (proj2 (scheme_split_none _) S) as W. rewrite W. destruct (has_opaque_path b) eqn:P.
    + apply (opaque_base b (r ++ f) P S). destruct (O P) as [-> N]. exists f. auto.
    + now apply no_scheme_on.
Qed.
Lemma main_inv base s : shows_forbidden -> scalar_string s -> calm (flat_main E base enc s) -> main_log E base s = [] -> url_string false D V base s.
Proof.
  intros K Hs L H. unfold main_log in H. unfold flat_main in L. destruct (scheme_split s) as [[sch x]|] eqn:W.
  - apply scheme_split_iff in W as [-> S]. rewrite UrlProps.lower_std in H, L. apply scheme_inv in H; auto.
    + assert (X : exists sch0 x0, sch ++ 58 :: x = sch0 ++ 58 :: x0 /\ std_scheme sch0 = true /\ abs_body (std_lower sch0) x0) by eauto.
      apply absolute_iff in X as (r & f & Q & Ff & A). exists r, f. auto.
    + apply scalar_app in Hs as [_ Hs]. now apply scalar_cons in Hs.
  - apply scheme_split_none in W. destruct base as [b|]; [|discriminate H]. destruct (has_opaque_path b) eqn:P.
    + apply (opaque_base b s P W) in H as (f & -> & Ff & N). exists [], f. split; [reflexivity|]. split; [exact Ff|]. right. exists b. split; [reflexivity|]. split; [|auto].
      exists [], []. split; [reflexivity|]. split; [now left|]. left. split; [|intros sch t Q; destruct sch; discriminate Q]. split; [apply ps_last; constructor|intros t Q; discriminate Q].
    + pose proof (no_scheme_inv b s P K Hs L H) as B. destruct (proj2 (relative_iff b s) (conj W B)) as (r & f & Q & Ff & A).
      exists r, f. split; [exact Q|]. split; [exact Ff|]. right. exists b. split; [reflexivity|]. split; [exact A|]. unfold std_opaque_path. unfold has_opaque_path in P. congruence.
Qed.
End Silent.

(* ---------- nothing reported, nothing raised ---------- *)
Definition quiet (r : res urlrec) (l : log) : Prop := l = [] -> r <> Err EValue -> exists u, r = Ok u.
Section Quiet.
Context (E : env) (enc : str) (HE : limit_ok E).
Hypothesis encodes : forall u q, enc_query E enc u q <> None.
Lemma quiet_ok u l : quiet (Ok u) l. Proof. intros _ _. now exists u. Qed.
Lemma query_ok u rest : exists x, flat_query E enc u rest = Ok x.
Proof. unfold flat_query. destruct (span _ rest) as [q t]. pose proof (encodes u q). destruct (enc_query E enc u q); [eauto|congruence]. Qed.
Lemma tail_ok u t : exists x, flat_tail E enc u t = Ok x.
Proof. destruct t as [|c t]; [eexists; reflexivity|]. cbn [flat_tail]. destruct (c =? 63); [apply query_ok|eauto]. Qed.
Lemma path_ok u t : exists x, flat_path E enc u t = Ok x.
Proof. unfold flat_path. destruct (span _ t). apply tail_ok. Qed.
Lemma opaque_ok u t : exists x, flat_opaque E enc u t = Ok x.
Proof. unfold flat_opaque. destruct (span _ t). apply tail_ok. Qed.
Lemma start_ok u t : exists x, flat_path_start E enc u t = Ok x.
Proof.
  unfold flat_path_start. destruct t as [|c t]; [destruct (is_special u); [apply path_ok|eauto]|].
  destruct (is_special u); [apply path_ok|]. destruct (is_qf c); [apply tail_ok|apply path_ok].
Qed.
Lemma quiet_host u a t : quiet (flat_host E enc u a t) (host_log E (scheme u) a t).
Proof.
  intros H L. unfold flat_host, host_log in *. cbv zeta in H. change (special_scheme (scheme u)) with (is_special u) in H. change (is_not_special u) with (negb (is_special u)) in *.
  destruct (host_cut false a) as [h [ps|]].
  - destruct (length h =? 0)%nat; [discriminate|]. apply app_nil_iff in H as [F H]. destruct (host_silent_ok E h _ (calm_bind _ _ L) F) as [x X]. rewrite X in *. cbn [if_ok rbind] in *.
    destruct (port_inv E _ _ _ (calm_bind _ _ L) H) as (_ & _ & p & P). rewrite P. cbn [rbind]. apply start_ok.
  - destruct (is_special u && _); [discriminate|]. apply app_nil_iff in H as [F H]. destruct (host_silent_ok E h _ (calm_bind _ _ L) F) as [x X].
    rewrite X. cbn [rbind]. apply start_ok.
Qed.
Lemma set_creds_scheme ui u : scheme (set_creds ui u) = scheme u.
Proof. unfold set_creds. destruct (split_first 58 ui). reflexivity. Qed.
Lemma quiet_authority u rest : quiet (flat_authority E enc u rest) (authority_log E (scheme u) rest).
Proof.
  intros H L. unfold flat_authority, authority_log in *. change (special_scheme (scheme u)) with (is_special u) in H.
  pose proof (span_eq (fun c => negb (ends_auth (is_special u) c)) rest) as A.
  destruct (span (fun c => negb (ends_auth (is_special u) c)) rest) as [a t]. cbn [fst snd] in *. subst rest.
  apply app_nil_iff in H as [N H]. apply at_errs_nil in N. rewrite split_last_none in H, L |- * by (now apply mem_not_In). now apply quiet_host.
Qed.
Lemma quiet_ignore u rest : quiet (flat_authority E enc u (drop_while is_slash rest)) (ignore_log E (scheme u) rest).
Proof.
  intros H L. unfold ignore_log in H. apply app_nil_iff in H as [N H]. destruct rest as [|c t]; [now apply quiet_authority|].
  cbn [slash_errs drop_while] in *. destruct (is_slash c); [discriminate|]. now apply quiet_authority.
Qed.
Lemma quiet_file_host u rest : is_special u = true -> quiet (flat_file_host E enc u rest) (file_host_log E rest).
Proof.
  intros SP H L. unfold flat_file_host, file_host_log in *. pose proof (span_eq (fun c => negb (mem c $"/\?#")) rest) as A.
  destruct (span (fun c => negb (mem c $"/\?#")) rest) as [h t]. cbn [fst snd] in A. subst rest. apply app_nil_iff in H as [F H]. unfold file_host_errs in F.
  destruct (is_windows_drive_letter h); [discriminate|]. destruct h as [|c h]; [apply start_ok|]. change (is_not_special u) with (negb (is_special u)) in *. rewrite SP in *. cbn [negb] in *.
  destruct (host_silent_ok E (c :: h) _ (calm_bind _ _ L) F) as [x X]. rewrite X. cbn [rbind]. apply start_ok.
Qed.
Lemma quiet_file_slash base u rest : is_special u = true -> quiet (flat_file_slash E base enc u rest) (file_slash_log E rest).
Proof.
  intros SP H L. unfold flat_file_slash, file_slash_log in *. destruct rest as [|c t]; [apply path_ok|]. destruct (is_slash c); [|apply path_ok].
  apply app_nil_iff in H as [_ H]. apply quiet_file_host; auto.
Qed.
Lemma quiet_file base rest : quiet (flat_file E base enc rest) (file_log E base rest).
Proof.
  intros H L. unfold flat_file, file_log in *. cbv zeta. destruct rest as [|c t].
  - destruct base as [b|]; [|apply path_ok]. destruct (str_eqb (scheme b) $"file"); apply path_ok.
  - destruct (is_slash c).
    + apply app_nil_iff in H as [_ H]. apply quiet_file_slash; auto.
    + destruct base as [b|]; [|apply path_ok]. destruct (str_eqb (scheme b) $"file"); [|apply path_ok]. destruct (is_qf c); [apply tail_ok|apply path_ok].
Qed.
Lemma quiet_relative_slash b u rest : quiet (flat_relative_slash E b enc u rest) (relative_slash_log E (scheme u) rest).
Proof.
  intros H L. unfold flat_relative_slash, relative_slash_log in *. change (special_scheme (scheme u)) with (is_special u) in H. destruct rest as [|c t]; [apply path_ok|].
  destruct (is_special u && is_slash c); [apply app_nil_iff in H as [_ H]; now apply quiet_ignore|]. destruct (c =? 47); [now apply quiet_authority|apply path_ok].
Qed.
Lemma quiet_relative b rest : quiet (flat_relative E b enc rest) (relative_log E (scheme b) rest).
Proof.
  intros H L. unfold flat_relative, relative_log in *. cbv zeta. destruct rest as [|c t]; [eauto|]. change (is_special (set_scheme (scheme b) new_url)) with (special_scheme (scheme b)).
  destruct ((c =? 47) || _).
  - apply app_nil_iff in H as [_ H]. now apply quiet_relative_slash.
  - destruct (is_qf c); [apply tail_ok|apply path_ok].
Qed.
Lemma drop2 t : starts_with $"//" t = true -> drop_while is_slash t = drop_while is_slash (skipn 2 t).
Proof. intros H. apply (starts2 E) in H as [r ->]. reflexivity. Qed.
Lemma quiet_scheme base sch t : quiet (flat_scheme E base enc sch t) (scheme_log E base sch t).
Proof.
  intros H L. unfold flat_scheme, scheme_log in *. cbv zeta. destruct (str_eqb sch $"file"); [apply app_nil_iff in H as [_ H]; now apply quiet_file|].
  destruct (special_scheme sch).
  - destruct (starts_with $"//" t) eqn:W; [|discriminate]. assert (Q : quiet (flat_authority E enc (set_scheme sch new_url) (drop_while is_slash t)) (ignore_log E sch (skipn 2 t))).
    { rewrite (drop2 t W). apply quiet_ignore. }
    destruct base as [b|]; [|now apply Q]. rewrite andb_false_r in *. now apply Q.
  - destruct t as [|c r]; [apply opaque_ok|]. destruct (c =? 47); [|apply opaque_ok]. destruct r as [|d r]; [apply path_ok|].
    destruct (d =? 47); [now apply quiet_authority|apply path_ok].
Qed.
Lemma quiet_main base s : quiet (flat_main E base enc s) (main_log E base s).
Proof.
  intros H L. unfold flat_main, main_log in *. destruct (scheme_split s) as [[sch t]|] eqn:S.
  - now apply quiet_scheme.
  - unfold flat_no_scheme, no_scheme_log in *. destruct base as [b|]; [|discriminate]. destruct (has_opaque_path b).
    + destruct s as [|c t]; [discriminate|]. destruct (c =? 35); [eauto|discriminate].
    + destruct (str_eqb (scheme b) $"file"); [now apply quiet_file|now apply quiet_relative].
Qed.

(* ---------- digits after a colon that are not too long: nothing is raised ---------- *)
Definition fits (s : str) : Prop := forall a p b, s = a ++ 58 :: p ++ b -> forallb std_digit p = true -> short_for (int_limit E) p.
Lemma fits_after x s : fits (x ++ s) -> fits s.
Proof. intros H a p b -> D. apply (H (x ++ a) p b); [now rewrite <- app_assoc|exact D]. Qed.
Lemma fits_skip a b s : fits (a :: b :: s) -> fits s.
Proof. apply (fits_after [a; b]). Qed.
Lemma host_ok h : host_string (code_dom E) code_v6 h -> exists x, snd (host_parse E h false) = Ok x.
Proof.
  intros H. apply host_silent_ok; [|now apply special_host]. destruct H as [[[H0 H] F]|(a & -> & x & H)].
  - destruct h as [|c t]; [discriminate|]. assert (C : c <> 91).
    { intros ->. destruct (H 91 (or_introl eq_refl) eq_refl) as [_ Q]. discriminate Q. }
    unfold host_parse in *. apply N.eqb_neq in C. rewrite C in *. cbv zeta in *. rewrite fst_wbind, to_ascii_log in F. rewrite snd_wbind.
    destruct (snd (domain_to_ascii E false _)) as [d|]; [|discriminate F]. cbn [app] in F. destruct (existsb _ d); [discriminate|]. destruct (is_ends_in_a_number E d); [|discriminate].
    rewrite fst_wbind in F. rewrite snd_wbind. destruct (snd (ipv4_parse E d)) as [n|e] eqn:Q; [discriminate|]. apply ipv4_err_log in Q. rewrite app_nil_r in F. contradiction.
  - apply (code_v6_exact E a x HE) in H. unfold host_parse. change (91 =? 91) with true. cbv iota.
    assert (W : ends_with_char (91 :: a ++ [93]) 93 = true) by (unfold ends_with_char; cbn [rev]; rewrite rev_app_distr; reflexivity).
    rewrite W, removelast_last, snd_wbind, H. discriminate.
Qed.
Lemma opaque_host_ok h : opaque_host_string code_v6 h -> exists x, snd (host_parse E h true) = Ok x.
Proof.
  intros H. apply host_silent_ok; [|now apply opaque_host]. destruct H as [[H0 H]|(a & -> & x & H)].
  - destruct h as [|c t]; [discriminate|]. assert (C : c <> 91) by (intros ->; pose proof (opaque_unit_chars _ H 91 (or_introl eq_refl)) as X; discriminate X).
    unfold host_parse. apply N.eqb_neq in C. rewrite C, snd_wbind. unfold parse_opaque_host. destruct (existsb _ (c :: t)); [discriminate|]. destruct (is_url_units $"%" [] (c :: t)); discriminate.
  - apply (code_v6_exact E a x HE) in H. unfold host_parse. change (91 =? 91) with true. cbv iota.
    assert (W : ends_with_char (91 :: a ++ [93]) 93 = true) by (unfold ends_with_char; cbn [rev]; rewrite rev_app_distr; reflexivity).
    rewrite W, removelast_last, snd_wbind, H. discriminate.
Qed.
Lemma port_ok sch p a : port_string p -> fits (58 :: p ++ a) -> exists x, flat_port E sch p = Ok x.
Proof.
  intros [D V] F. pose proof (F [] p a eq_refl D) as L. unfold flat_port. rewrite port_digits, D. destruct p as [|c t]; [eauto|].
  assert (Q : e_int E (c :: t) 10 = Some (Z.of_N (std_decimal (c :: t)))).
  { unfold e_int. apply py_int_digits; [auto|discriminate|now apply decimal_eq|]. intros _. exact L. }
  rewrite Q. cbv zeta. rewrite N2Z.id. replace (65535 <? std_decimal (c :: t)) with false by lia. eauto.
Qed.
Lemma authority_ok u h p s : host_shape h -> optional 58 port_string p -> after_host s -> (exists x, snd (host_parse E h (negb (is_special u))) = Ok x) -> fits (p ++ s) ->
  exists x, flat_authority E enc u (h ++ p ++ s) = Ok x.
Proof.
  intros S P A (x & X) F. unfold flat_authority. destruct (authority_span (is_special u) h p s (or_introl S) P A) as [-> N].
  rewrite split_last_none by (apply mem_not_In; exact N). unfold flat_host. rewrite (shape_cut h p S P). change (is_not_special u) with (negb (is_special u)).
  assert (H0 : (length h =? 0)%nat = false) by (destruct S as [S _]; destruct h; [congruence|reflexivity]). destruct p as [|c ps].
  - rewrite H0, andb_false_r, X. cbn [rbind]. apply start_ok.
  - rewrite H0, X. cbn [rbind]. destruct P as [P|(t & Q & P)]; [discriminate|]. injection Q as -> <-.
    destruct (port_ok (scheme u) ps s P F) as [y Y]. rewrite Y. cbn [rbind]. apply start_ok.
Qed.
Lemma special_fit u rest : is_special u = true -> special_rest E rest -> fits rest -> exists x, flat_authority E enc u rest = Ok x.
Proof.
  intros SP (h & p & s & -> & H & P & A) F. apply authority_ok; auto; [now apply (host_string_shape E)|rewrite SP; now apply host_ok|now apply fits_after in F].
Qed.
Lemma other_fit u rest : is_special u = false -> other_rest rest -> fits rest -> exists x, flat_authority E enc u rest = Ok x.
Proof.
  intros SP (hp & s & -> & H & A) F. destruct H as [-> |(h & p & -> & H & P)].
  - cbn [app]. unfold flat_authority. destruct (authority_span (is_special u) [] [] s (or_intror (conj eq_refl eq_refl)) (or_introl eq_refl) A) as [Q _]. cbn [app] in Q. rewrite Q.
    cbn [split_last]. unfold flat_host. cbn [host_cut]. rewrite SP. cbn [andb]. apply start_ok.
  - rewrite <- app_assoc in *. apply authority_ok; auto; [now apply opaque_string_shape|rewrite SP; now apply opaque_host_ok|now apply fits_after in F].
Qed.
Lemma ignore_fit u rest : is_special u = true -> special_rest E rest -> fits rest -> exists x, flat_authority E enc u (drop_while is_slash rest) = Ok x.
Proof.
  intros SP H F. pose proof (special_start E rest H) as S. replace (drop_while is_slash rest) with rest; [now apply special_fit|].
  destruct rest as [|c t]; [reflexivity|]. cbn [drop_while]. now rewrite S.
Qed.
Lemma file_host_fit rest : file_rest E rest -> exists x, flat_file_host E enc file_url rest = Ok x.
Proof.
  intros (h & s & -> & H & A). unfold flat_file_host.
  assert (ST : match s with [] => True | c :: _ => negb (mem c $"/\?#") = false end).
  { apply after_host_stop in A. destruct s as [|c s]; [exact I|]. rewrite FlatProofs.qf_eq in A. change (mem c $"/\?#") with (mem c [47; 92; 63; 35]). cbn [mem existsb]. lia. }
  destruct H as [H| ->].
  - destruct (host_string_ends E h H) as (H0 & F & D). rewrite span_app by auto. rewrite D. destruct h as [|c h]; [congruence|].
    change (is_not_special file_url) with false. destruct (host_ok _ H) as [x X]. rewrite X. cbn [rbind]. apply start_ok.
  - rewrite span_app by auto. change (is_windows_drive_letter []) with false. apply start_ok.
Qed.
Lemma scheme_fit base sch x : abs_body E sch x -> fits x -> exists y, flat_scheme E base enc sch x = Ok y.
Proof.
  intros H F. unfold flat_scheme. cbv zeta. destruct H as [(-> & r & -> & H)|[(S & N & r & -> & H)|(S & H)]].
  - change (str_eqb $"file" $"file") with true. cbv iota. exact (file_host_fit r H).
  - apply str_eqb_neq in N. rewrite N. apply UrlProps.special_spec in S. rewrite S. assert (W : starts_with $"//" (47 :: 47 :: r) = true) by (apply (starts2 E); eauto).
    assert (Q : exists y, flat_authority E enc (set_scheme sch new_url) (drop_while is_slash (47 :: 47 :: r)) = Ok y) by (apply (ignore_fit (set_scheme sch new_url) r); auto; now apply fits_skip in F).
    destruct base as [b|]; [|exact Q]. rewrite W, andb_false_r. exact Q.
  - apply not_special in S. assert (N : str_eqb sch $"file" = false) by (apply str_eqb_neq; intros ->; discriminate S).
    rewrite N, S. destruct x as [|c r]; [apply opaque_ok|]. destruct (N.eqb_spec c 47) as [-> |C]; [|apply opaque_ok]. destruct r as [|d r]; [apply path_ok|].
    destruct (N.eqb_spec d 47) as [-> |C]; [|apply path_ok]. apply other_fit; auto; [|now apply fits_skip in F].
    destruct H as [(r' & Q & H)|[H|H]]; [now injection Q as ->| |].
    + exfalso. apply tail_absolute in H as (y & Q & M & _). injection Q as <-. now apply no_slash_cons in M.
    + exfalso. apply tail_relative in H as (M & _). now apply no_slash_cons in M.
Qed.
Definition after_body (b : urlrec) (r : str) : Prop := (special_scheme (scheme b) = true /\ special_rest E r) \/ (special_scheme (scheme b) = false /\ other_rest r).
Lemma no_scheme_fit b x : has_opaque_path b = false -> rel_body E b x -> fits x -> exists y, flat_no_scheme E (Some b) enc x = Ok y.
Proof.
  intros HO H F. unfold flat_no_scheme. rewrite HO.
  assert (TA : forall r, then_tail path_absolute (47 :: 47 :: r) \/ then_tail path_relative (47 :: 47 :: r) -> False).
  { intros r [T|T]; [apply tail_absolute in T as (y & Q & M & _); injection Q as <-; now apply no_slash_cons in M|apply tail_relative in T as (M & _); now apply no_slash_cons in M]. }
  destruct (str_eqb (scheme b) $"file") eqn:N.
  - apply str_eqb_eq in N. destruct H as [H|[H|[(_ & r & -> & H)|[(_ & M & _)|(M & _)]]]]; [| | |contradiction|rewrite N in M; exfalso; apply M, special_file].
    + apply tail_relative in H as (M & P). unfold flat_file. cbv zeta. destruct x as [|c t]; [destruct (str_eqb (scheme b) $"file"); apply path_ok|]. apply no_slash_cons in M. pose proof (path_log_slash_only _ _ _ P) as B.
      rewrite slash_eq. replace ((c =? 47) || (c =? 92)) with false by lia. destruct (str_eqb (scheme b) $"file"); [destruct (is_qf c); [apply tail_ok|apply path_ok]|apply path_ok].
    + apply tail_absolute in H as (y & -> & M & P). unfold flat_file. change (is_slash 47) with true. cbv iota zeta. unfold flat_file_slash. destruct y as [|c t]; [apply path_ok|]. apply no_slash_cons in M. pose proof (path_log_slash_only _ _ _ P) as B.
      rewrite slash_eq. replace ((c =? 47) || (c =? 92)) with false by lia. apply path_ok.
    + exact (file_host_fit r H).
  - apply str_eqb_neq in N. unfold flat_relative. cbv zeta. change (is_special (set_scheme (scheme b) new_url)) with (special_scheme (scheme b)). destruct x as [|c t]; [eauto|].
    destruct ((c =? 47) || (special_scheme (scheme b) && (c =? 92))) eqn:C; [|destruct (is_qf c); [apply tail_ok|apply path_ok]].
    unfold flat_relative_slash. change (is_special (set_scheme (scheme b) new_url)) with (special_scheme (scheme b)). destruct t as [|d t]; [apply path_ok|].
    assert (Q : is_slash d = false \/ (special_scheme (scheme b) = false /\ d <> 47) \/ exists r, c :: d :: t = 47 :: 47 :: r /\ after_body b r).
    { destruct H as [H|[H|[(M & _)|[(S & _ & r & Q & H)|(S & r & Q & H)]]]]; [| |contradiction| |].
      - apply tail_relative in H as (M & P). apply no_slash_cons in M. pose proof (path_log_slash_only _ _ _ P). exfalso. destruct (special_scheme (scheme b)); cbn [andb] in C; lia.
      - apply tail_absolute in H as (y & Q & M & P). injection Q as -> <-. apply no_slash_cons in M. pose proof (path_log_slash_only _ _ _ P). left. rewrite slash_eq. lia.
      - right; right. exists r. split; [exact Q|]. left. split; [now apply UrlProps.special_spec|exact H].
      - right; right. exists r. split; [exact Q|]. right. split; [now apply not_special|exact H]. }
    destruct Q as [Q|[[Q M]|(r & Q & [[S H']|[S H']])]].
    + rewrite Q, andb_false_r. assert (d <> 47) by (rewrite slash_eq in Q; lia). replace (d =? 47) with false by lia. apply path_ok.
    + rewrite Q. cbn [andb]. replace (d =? 47) with false by lia. apply path_ok.
    + injection Q as -> -> ->. rewrite S. change (is_slash 47) with true. cbn [andb]. apply ignore_fit; auto. now apply fits_skip in F.
    + injection Q as -> -> ->. rewrite S. cbn [andb]. change (47 =? 47) with true. cbv iota. apply other_fit; auto. now apply fits_skip in F.
Qed.
Lemma main_fit base s : url_string false (code_dom E) code_v6 base s -> fits s -> exists x, flat_main E base enc s = Ok x.
Proof.
  intros (r & f & -> & Ff & H) F. unfold flat_main. destruct H as [H|(b & -> & H & O)].
  - assert (X : exists r0 f0, r ++ f = r0 ++ f0 /\ optional 35 unit_string f0 /\ absolute_url false (code_dom E) code_v6 r0) by eauto.
    apply absolute_iff in X as (sch & x & Q & S & B). assert (W : scheme_split (r ++ f) = Some (sch, x)) by (apply scheme_split_iff; auto).
    rewrite W, UrlProps.lower_std. apply scheme_fit; [exact B|]. rewrite Q in F. apply fits_after in F. now apply (fits_after [58]) in F.
  - assert (X : exists r0 f0, r ++ f = r0 ++ f0 /\ optional 35 unit_string f0 /\ relative_url false (code_dom E) code_v6 b r0) by eauto.
    apply relative_iff in X as (S & B). pose proof (proj2 (scheme_split_none _) S) as W. rewrite W. destruct (has_opaque_path b) eqn:P.
    + unfold flat_no_scheme. rewrite P. destruct (O P) as [-> N]. destruct Ff as [-> |(t & -> & _)]; [congruence|]. cbn [app]. change (35 =? 35) with true. cbv iota. eauto.
    + now apply no_scheme_fit.
Qed.
End Quiet.
