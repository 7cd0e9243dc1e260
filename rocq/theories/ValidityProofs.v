(** Parsing with and without a ValidityState: messages are formatted eagerly with
    one, which can raise ValueError for huge IPv4 numbers; nothing else differs. *)
From Coq Require Import Ascii String.
From Coq Require Import NArith ZArith Bool Arith Lia ZifyBool ZifyN ZifyNat List.
From Verif Require Import PyStr PyInt Codec Env HostModel UrlRecord Parser SearchParams UrlApi Schemes Validators SpecText SpecHost FlatParser.
From Verif Require Import Lemmas CodecProofs QuoteProofs PyIntProofs LegacyProofs IPv4Proofs HostProofs LoopProofs FlatProofs TermProofs WfProofs RoundTrip LooseProofs ParserProofs UrlProps ValidatorProofs ApiProofs ObjProofs SpecUrl SpecApi.
Import ListNotations.
Open Scope N_scope.

Section Validity.
Context (E : env).
Notation E1 := (with_validity E true).
Notation E0 := (with_validity E false).
(** the result with a ValidityState, and the one without *)
Definition vrel {A} (r1 r0 : res A) : Prop := r1 = r0 \/ (r1 = Err EValue /\ int_limit E <> None).
Lemma vrel_refl {A} (r : res A) : vrel r r. Proof. now left. Qed.
Lemma vrel_bind {A B} (r1 r0 : res A) (f1 f0 : A -> res B) : vrel r1 r0 -> (forall a, vrel (f1 a) (f0 a)) -> vrel (rbind r1 f1) (rbind r0 f0).
Proof. intros [->|[-> L]] H; [destruct r0; [apply H|now left]|right; auto]. Qed.

Lemma numbers_validity b ps : ipv4_numbers (with_validity E b) ps = ipv4_numbers E ps.
Proof. induction ps as [|p t IH]; [reflexivity|]. cbn [ipv4_numbers]. rewrite IH. reflexivity. Qed.
Lemma ipv4_validity s : vrel (snd (ipv4_parse E1 s)) (snd (ipv4_parse E0 s)).
Proof.
  unfold ipv4_parse. cbv zeta. rewrite !snd_wbind'. set (m := match last (split 46 s) [] with [] => _ | _ => _ end). destruct (snd m); [|apply vrel_refl].
  destruct (4 <? _)%nat; [apply vrel_refl|]. rewrite !snd_wbind', !numbers_validity. destruct (snd (ipv4_numbers E _)) as [ns|e]; [|apply vrel_refl].
  rewrite !snd_wbind'. cbn [has_validity with_validity andb].
  change (existsb (repr_fails E1) ns) with (existsb (repr_fails E) ns). change (existsb (repr_fails E0) ns) with (existsb (repr_fails E) ns).
  destruct (existsb (fun x => 255 <? x) ns); [|apply vrel_refl]. destruct (existsb (repr_fails E) ns) eqn:R; [|apply vrel_refl].
  right. split; [reflexivity|]. apply existsb_In in R as (x & _ & R). now apply repr_none in R.
Qed.
Lemma host_validity h ns : vrel (snd (host_parse E1 h ns)) (snd (host_parse E0 h ns)).
Proof.
  destruct h as [|c t] eqn:Q; [apply vrel_refl|]. rewrite <- Q. assert (Hn : h <> []) by (subst; discriminate). clear Q.
  rewrite !host_parse_eq by auto. rewrite !ipv6_validity. destruct (starts_with [91] h); [apply vrel_refl|]. destruct ns; [apply vrel_refl|].
  change (domain_to_ascii E1) with (domain_to_ascii E). change (domain_to_ascii E0) with (domain_to_ascii E).
  destruct (snd (domain_to_ascii E false _)) as [d|]; [|apply vrel_refl]. destruct (existsb std_forbidden_domain d); [apply vrel_refl|].
  change (is_ends_in_a_number E1 d) with (is_ends_in_a_number E d). change (is_ends_in_a_number E0 d) with (is_ends_in_a_number E d).
  destruct (is_ends_in_a_number E d); [|apply vrel_refl]. destruct (ipv4_validity d) as [->|[-> L]]; [apply vrel_refl|right; auto].
Qed.

Context (enc : str).
Lemma vhost u a t : vrel (flat_host E1 enc u a t) (flat_host E0 enc u a t).
Proof.
  unfold flat_host. destruct (host_cut false a) as [h [ps|]].
  - destruct (length h =? 0)%nat; [apply vrel_refl|]. apply vrel_bind; [apply host_validity|]. intros x. apply vrel_refl.
  - destruct (_ && _); [apply vrel_refl|]. apply vrel_bind; [apply host_validity|]. intros x. apply vrel_refl.
Qed.
Lemma vauthority u rest : vrel (flat_authority E1 enc u rest) (flat_authority E0 enc u rest).
Proof.
  unfold flat_authority. destruct (span _ rest) as [a t]. destruct (split_last 64 a) as [[ui hp]|]; [|apply vhost].
  destruct (length hp =? 0)%nat; [apply vrel_refl|apply vhost].
Qed.
Lemma vfile_host u rest : vrel (flat_file_host E1 enc u rest) (flat_file_host E0 enc u rest).
Proof.
  unfold flat_file_host. destruct (span _ rest) as [h t]. destruct (is_windows_drive_letter h); [apply vrel_refl|]. destruct h; [apply vrel_refl|].
  apply vrel_bind; [apply host_validity|]. intros x. apply vrel_refl.
Qed.
Lemma vfile base rest : vrel (flat_file E1 base enc rest) (flat_file E0 base enc rest).
Proof.
  unfold flat_file. cbv zeta. destruct rest as [|c t]; [apply vrel_refl|]. destruct (is_slash c); [|apply vrel_refl].
  unfold flat_file_slash. destruct t as [|d t]; [apply vrel_refl|]. destruct (is_slash d); [apply vfile_host|apply vrel_refl].
Qed.
Lemma vrelative b rest : vrel (flat_relative E1 b enc rest) (flat_relative E0 b enc rest).
Proof.
  unfold flat_relative. cbv zeta. destruct rest as [|c t]; [apply vrel_refl|]. destruct (_ || _); [|apply vrel_refl].
  unfold flat_relative_slash. destruct t as [|d t]; [apply vrel_refl|]. destruct (_ && _); [apply vauthority|]. destruct (d =? 47); [apply vauthority|apply vrel_refl].
Qed.
Lemma vmain base s : vrel (flat_main E1 base enc s) (flat_main E0 base enc s).
Proof.
  unfold flat_main. destruct (scheme_split s) as [[sch t]|].
  - unfold flat_scheme. cbv zeta. destruct (str_eqb _ _); [apply vfile|]. destruct (special_scheme _).
    + destruct base as [b|]; [|apply vauthority]. destruct (_ && _); [apply vrelative|apply vauthority].
    + destruct t as [|c t]; [apply vrel_refl|]. destruct (c =? 47); [|apply vrel_refl]. destruct t as [|d t]; [apply vrel_refl|].
      destruct (d =? 47); [apply vauthority|apply vrel_refl].
  - unfold flat_no_scheme. destruct base as [b|]; [|apply vrel_refl]. destruct (has_opaque_path b); [apply vrel_refl|].
    destruct (str_eqb _ _); [apply vfile|apply vrelative].
Qed.
End Validity.
Lemma parse_new_validity E s base encoding : base_ok base ->
  vrel E (snd (parse_new (with_validity E true) s base encoding)) (snd (parse_new (with_validity E false) s base encoding)).
Proof. intros H. rewrite !parse_new_flat by exact H. apply vmain. Qed.
Lemma parse_url_validity E s base encoding : enc_ok E (normalize_encoding E encoding) -> base_arg_ok base ->
  vrel E (snd (parse_url (with_validity E true) s base encoding)) (snd (parse_url (with_validity E false) s base encoding)).
Proof.
  intros HE HB. destruct base as [|b|b].
  - rewrite !parse_url_none. now apply parse_new_validity.
  - rewrite !parse_url_str. destruct (parse_new_validity E b None encoding I) as [->|[-> L]]; [|right; auto].
    destruct (snd (parse_new (with_validity E false) b None encoding)) as [u|e] eqn:Q; [|apply vrel_refl]. apply parse_new_validity.
    eapply wf_base_ok. eapply (parse_new_wf (with_validity E false) b None encoding u); eauto; exact I.
  - rewrite !parse_url_rec. now apply parse_new_validity.
Qed.
Lemma can_parse_agrees E s base : is_pystr s -> base_arg_ok base ->
  (can_parse E s base = Ok true -> exists o, url_new E s base = Ok o) /\
  (can_parse E s base = Ok false -> exists e, url_new E s base = Err e /\ is_url_error e = true) /\
  (forall o, url_new E s base = Ok o -> can_parse E s base = Ok true \/ (can_parse E s base = Err EValue /\ int_limit E <> None)) /\
  (forall e, url_new E s base = Err e -> can_parse E s base = Ok false \/ (can_parse E s base = Err EValue /\ int_limit E <> None)).
Proof.
  intros Hs HB. pose proof (parse_url_validity E s base UTF8 (enc_utf8 E) HB) as V.
  pose proof (parse_url_err (with_validity E false) s base UTF8 (enc_utf8 _) Hs HB) as P0.
  unfold can_parse, url_new. destruct V as [->|[-> L]].
  - destruct (snd (parse_url (with_validity E false) s base UTF8)) as [u|e] eqn:Q.
    + repeat split; try discriminate; eauto.
    + specialize (P0 e eq_refl). repeat split; try discriminate.
      * destruct (is_url_error e); discriminate.
      * destruct (is_url_error e) eqn:U; [|discriminate]. eauto.
      * intros e' _. destruct P0 as [->|[-> L]]; [now left|right; auto].
  - cbn [is_url_error]. repeat split; try discriminate; intros; right; auto.
Qed.

(* ---------- no raising log entry in a successful run ---------- *)
Definition RAISED := VIPv4OutOfRangeRaised.
Definition wtame {A} (w : W A) : Prop := forall a, snd w = Ok a -> ~ In RAISED (fst w).
Lemma wtame_bind {A B} (m : W A) (k : A -> W B) : wtame m -> (forall a, wtame (k a)) -> wtame (wbind m k).
Proof.
  intros H1 H2. unfold wtame, wbind in *. destruct m as [l [a|e]]; cbn [fst snd] in *; [|discriminate].
  specialize (H1 a eq_refl). specialize (H2 a). destruct (k a) as [l' r]; cbn [fst snd] in *. intros b Hb Hi.
  apply in_app_or in Hi as [Hi|Hi]; [auto|]. exact (H2 b Hb Hi).
Qed.
Lemma wtame_ret {A} (a : A) : wtame (wret a). Proof. intros b _ []. Qed.
Lemma wtame_log v : v <> RAISED -> wtame (wlog v). Proof. intros H b _ [X|[]]. auto. Qed.
Lemma wtame_fail {A} v e : wtame (@wfail A v e). Proof. intros b. discriminate. Qed.
Lemma wtame_opt {A} e (o : option A) : wtame (of_opt e o). Proof. destruct o; [apply wtame_ret|intros b; discriminate]. Qed.
Ltac wt := repeat first
  [ apply wtame_ret | apply wtame_log; discriminate | apply wtame_fail | apply wtame_opt | apply wtame_bind; [|intros ?]
  | match goal with |- wtame (if ?b then _ else _) => destruct b
                  | |- wtame (match ?x with _ => _ end) => destruct x end
  | progress cbv zeta ].
Lemma tame_numbers E parts : wtame (ipv4_numbers E parts).
Proof. induction parts; cbn [ipv4_numbers]; [apply wtame_ret|]. wt. exact IHparts. Qed.
Lemma tame_ipv4 E s : wtame (ipv4_parse E s).
Proof. unfold ipv4_parse. wt; apply tame_numbers. Qed.
Lemma tame_ipv6 E s : wtame (ipv6_parse E s).
Proof. intros a H. rewrite (silent_ipv6 E s a H). intros []. Qed.
Lemma tame_ascii E b d : wtame (domain_to_ascii E b d).
Proof. unfold domain_to_ascii. wt. Qed.
Lemma tame_host E h ns : wtame (host_parse E h ns).
Proof.
  unfold host_parse, parse_opaque_host.
  repeat first [ apply tame_ipv6 | apply tame_ascii | apply tame_ipv4
    | match goal with |- wtame (wfail _ _) => apply wtame_fail | |- wtame (wret _) => apply wtame_ret | |- wtame (wlog _) => apply wtame_log; discriminate
      | |- wtame (wbind _ _) => apply wtame_bind; [|intros ?] | |- wtame (if ?b then _ else _) => destruct b
      | |- wtame (match ?x with _ => _ end) => destruct x end
    | progress cbv zeta ].
Qed.
Definition tame {A} (m : M A) : Prop := forall u a, snd (run m u) = Ok a -> ~ In RAISED (fst (m u)).
Lemma tame_bind {A B} (m : M A) (k : A -> M B) : tame m -> (forall a, tame (k a)) -> tame (bind m k).
Proof.
  intros H1 H2 u. specialize (H1 u). unfold run, bind in *. destruct (m u) as [l [u' [a|e]]]; cbn [fst snd] in *; [|discriminate].
  specialize (H1 a eq_refl). specialize (H2 a u'). unfold run in H2. destruct (k a u') as [l' [u'' r]]; cbn [fst snd] in *. intros b Hb Hi.
  apply in_app_or in Hi as [Hi|Hi]; [auto|]. exact (H2 b Hb Hi).
Qed.
Lemma tame_ret {A} (a : A) : tame (ret a). Proof. intros u b _ []. Qed.
Lemma tame_get : tame get. Proof. intros u b _ []. Qed.
Lemma tame_modify f : tame (modify f). Proof. intros u b _ []. Qed.
Lemma tame_logm v : v <> RAISED -> tame (logm v). Proof. intros H u b _ [X|[]]. auto. Qed.
Lemma tame_raise {A} e : tame (@raise A e). Proof. intros u b _ []. Qed.
Lemma tame_fail {A} v e : tame (@fail A v e). Proof. intros u b. discriminate. Qed.
Lemma tame_when b m : tame m -> tame (when b m). Proof. destruct b; [auto|]. intros _. apply tame_ret. Qed.
Lemma tame_lift {A} (w : W A) : wtame w -> tame (lift w). Proof. intros H u a Ha. exact (H a Ha). Qed.
Ltac tm := repeat first
  [ apply tame_ret | apply tame_get | apply tame_modify | apply tame_logm; discriminate | apply tame_fail | apply tame_raise
  | apply tame_lift; apply tame_host | apply tame_when | apply tame_bind; [|intros ?]
  | match goal with |- tame (if ?b then _ else _) => destruct b
                  | |- tame (match ?x with _ => _ end) => destruct x end
  | progress cbv zeta ].
Lemma tame_append x : tame (path_append x). Proof. unfold path_append. tm. Qed.
Lemma tame_shorten : tame shorten_path. Proof. unfold shorten_path. tm. Qed.
Lemma tame_check c t : tame (check_unit c t). Proof. unfold check_unit. tm. Qed.
Lemma tame_flush c b : tame (path_flush c b). Proof. unfold path_flush. tm; auto using tame_append, tame_shorten. Qed.
Lemma tame_query_flush E enc b : tame (query_flush E enc b). Proof. unfold query_flush, query_append. tm. Qed.
Lemma tame_step E base enc so st rest : tame (step E base enc so st rest).
Proof.
  destruct st; cbn [step].
  - apply tame_ret.
  - unfold parse_authority. apply tame_bind; [|intros ?; apply tame_ret].
    set (x := false) at 1. generalize 0%nat, (@nil N), x, false. clear x. induction rest as [|c t IH]; intros i b x y; cbn [authority_loop]; [unfold authority_end; tm|].
    destruct (c =? 64); [|tm; [unfold authority_end; tm|apply IH]]. apply tame_bind; [tm|intros _]. cbv zeta. destruct (if y then _ else _) as [[? ?] ?]. tm. apply IH.
  - unfold parse_file_host. generalize 0%nat, (@nil N). induction rest as [|c t IH]; intros i b; cbn [file_host_loop]; [|destruct (mem c _); [|apply IH]]; unfold file_host_end; tm.
  - unfold parse_file_slash. tm; apply tame_append.
  - unfold parse_file. tm; apply tame_shorten.
  - unfold parse_fragment. generalize 0%nat, (@nil N). induction rest as [|c t IH]; intros i b; cbn [fragment_loop]; [unfold fragment_append; tm|]. apply tame_bind; [apply tame_check|intros _; apply IH].
  - unfold parse_host. tm. generalize 0%nat, (@nil N), false. induction rest as [|c t IH]; intros i b x; cbn [host_loop]; [unfold host_end; tm|]. tm; try (unfold host_end; tm; fail); apply IH.
  - unfold parse_host. tm. generalize 0%nat, (@nil N), false. induction rest as [|c t IH]; intros i b x; cbn [host_loop]; [unfold host_end; tm|]. tm; try (unfold host_end; tm; fail); apply IH.
  - unfold parse_no_scheme. tm.
  - unfold parse_opaque_path. generalize 0%nat. induction rest as [|c t IH]; intros i; cbn [opaque_path_loop]; [tm|]. destruct (c =? 63); [tm|]. destruct (c =? 35); [tm|].
    apply tame_bind; [apply tame_check|intros _]. unfold path_extend. apply tame_bind; [tm|intros _; apply IH].
  - unfold parse_path_or_authority. tm.
  - unfold parse_path_start. tm; apply tame_append.
  - unfold parse_path. generalize 0%nat, (@nil N). induction rest as [|c t IH]; intros i b; cbn [path_loop]; [apply tame_bind; [apply tame_flush|intros _; tm]|].
    apply tame_bind; [apply tame_get|intros u]. destruct (_ || _ || _).
    + apply tame_bind; [tm|intros _]. apply tame_bind; [apply tame_flush|intros _]. destruct (c =? 63); [tm|]. destruct (c =? 35); [tm|]. apply IH.
    + apply tame_bind; [apply tame_check|intros _; apply IH].
  - unfold parse_port. generalize 0%nat, (@nil N). induction rest as [|c t IH]; intros i b; cbn [port_loop]; [unfold port_end; tm|]. destruct (mem c _); [apply IH|]. unfold port_end; tm.
  - unfold parse_query. generalize 0%nat, (@nil N). induction rest as [|c t IH]; intros i b; cbn [query_loop]; [apply tame_bind; [apply tame_when, tame_query_flush|intros _; tm]|].
    destruct (_ && _); [apply tame_bind; [apply tame_query_flush|intros _; tm]|]. apply tame_bind; [apply tame_check|intros _; apply IH].
  - unfold parse_relative_slash. tm.
  - unfold parse_relative. tm; apply tame_shorten.
  - unfold parse_scheme. destruct rest as [|c t]; [tm|]. destruct (mem c _); [|tm]. generalize 1%nat, [c]. clear c. induction t as [|d t IH]; intros i b; cbn [scheme_loop]; [tm|].
    destruct (_ || _); [apply IH|]. tm.
  - apply tame_raise.
  - unfold parse_ignore_slashes. generalize 0%nat. induction rest as [|c t IH]; intros i; cbn [ignore_slashes_loop]; [tm|]. destruct (mem c _); [|tm]. apply tame_bind; [tm|intros _; apply IH].
  - unfold parse_special_authority_slashes. tm.
  - unfold parse_special_relative_or_authority. tm.
Qed.
Lemma tame_fsm E base enc so : forall n st rest, tame (run_fsm n E base enc so st rest).
Proof.
  induction n as [|n IH]; intros st rest; [destruct st; cbn [run_fsm]; tm|].
  assert (st = EOF \/ st <> EOF) as [->|Hst] by (destruct st; auto; right; discriminate); [apply tame_ret|].
  rewrite run_fsm_S by auto. apply tame_bind; [apply tame_step|]. intros r. apply IH.
Qed.
Lemma tame_new E s base enc : wtame (parse_new E s base enc).
Proof.
  assert (P : tame (when (needs_strip s) (logm VInvalidURLUnit);; parse_into E (strip_c0 s) base enc None)).
  { apply tame_bind; [apply tame_when, tame_logm; discriminate|intros _]. unfold parse_into. apply tame_bind; [apply tame_when, tame_logm; discriminate|intros _]. apply tame_fsm. }
  specialize (P new_url). unfold parse_new, run in *. destruct ((when (needs_strip s) (logm VInvalidURLUnit);; parse_into E (strip_c0 s) base enc None) new_url) as [l [u [a|e]]]; intros v; cbn [fst snd] in *; [|discriminate]. intros _. now apply (P a).
Qed.
Lemma tame_url E s base enc : wtame (parse_url E s base enc).
Proof. unfold parse_url. apply wtame_bind; [|intros b; apply tame_new]. destruct base; wt. apply tame_new. Qed.
Lemma vs_apply_count l : forall s, ~ In RAISED l -> vs_count (vs_apply l s) = (length l + vs_count s)%nat.
Proof.
  induction l as [|v l IH]; intros s H; [reflexivity|]. rewrite vs_apply_cons, IH by (intros X; apply H; now right).
  assert (vs_count (vs_log v s) = S (vs_count s)) by (destruct v; try reflexivity; exfalso; apply H; now left). cbn [length]. lia.
Qed.
(** what URLValidator.is_valid decides *)
Lemma url_valid_spec E s base enc v : enc_ok E (normalize_encoding E enc) -> is_pystr s -> base_parsed (with_validity E true) base ->
  (fst (url_is_valid E s base enc v) = Ok true <->
   exists u, parse_url (with_validity E true) s base enc = ([], Ok u) /\ In (scheme u) REGISTERED_SCHEMES).
Proof.
  intros HE Hs HB. set (E1 := with_validity E true) in *. unfold url_is_valid. fold E1. pose proof (tame_url E1 s base enc) as T.
  assert (P : forall u, snd (parse_url E1 s base enc) = Ok u -> parsed E1 u).
  { intros u H. destruct base as [|b|b]; cbn [base_parsed] in HB.
    - exact (parsed_none E1 s enc u Hs HE H).
    - exact (parsed_str E1 s b enc u Hs HB HE H).
    - exact (parsed_rec E1 s b enc u Hs HB HE H). }
  destruct (parse_url E1 s base enc) as [l [u|e]]; cbn [fst snd] in *.
  2:{ split; [destruct (is_url_error e); discriminate|]. intros (u & H & _). discriminate. }
  specialize (T u eq_refl). specialize (P u eq_refl). apply parsed_wf in P as ((S & _) & _).
  assert (L : lower (scheme u) = scheme u /\ ascii_str (scheme u)).
  { split; [now apply scheme_lower|]. apply Forall_forall. intros c Hc. destruct (scheme u) as [|d t]; [destruct Hc|]. destruct S as [S1 S2].
    destruct Hc as [<-|Hc]; [lia|]. rewrite forallb_forall in S2. specialize (S2 c Hc). unfold scheme_tail_char in S2. lia. }
  destruct L as [L A]. pose proof (scheme_valid E (scheme u) (Some (vs_apply l (vs_start v))) A) as V. rewrite L in V.
  destruct (is_valid_url_scheme E (scheme u) (Some (vs_apply l (vs_start v)))) as [b vs] eqn:Q. cbn [fst snd] in *.
  cbn [vs_iadd vs_count]. rewrite vs_apply_count, vs_start_count by exact T.
  assert (C : vs_count vs = if b then 0%nat else 1%nat).
  { unfold is_valid_url_scheme in Q. destruct (_ && _); apply pair_equal_spec in Q as [<- <-]; reflexivity. }
  rewrite C. split.
  - intros H. injection H as H. exists u. destruct b; [|lia]. split; [|now apply V]. destruct l; [reflexivity|cbn [length] in H; lia].
  - intros (u' & H & R). apply pair_equal_spec in H as [-> H]. injection H as <-. apply V in R. subst b. reflexivity.
Qed.
Lemma url_valid_parses E s base enc v : enc_ok E (normalize_encoding E enc) -> is_pystr s -> base_parsed (with_validity E true) base ->
  fst (url_is_valid E s base enc v) = Ok true ->
  exists u, snd (parse_url (with_validity E false) s base enc) = Ok u /\ fst (parse_url (with_validity E true) s base enc) = [] /\ In (scheme u) REGISTERED_SCHEMES.
Proof.
  intros HE Hs HB H. apply url_valid_spec in H as (u & H & R); auto. exists u. rewrite H. split; [|auto].
  destruct (parse_url_validity E s base enc HE (base_parsed_arg _ base HB)) as [X|[X _]]; rewrite H in X; cbn [snd] in X; [auto|discriminate].
Qed.

Lemma base_reached_arg E base : base_reached E base -> base_arg_ok base.
Proof.
  destruct base as [|b|u]; [exact (fun _ => I)|exact (fun H => H)|]. intros (o & R & ->). destruct (reached_inv E o R) as (L & _ & _).
  exact (loose_base_ok (EE E) (Some (o_url o)) L).
Qed.
Lemma can_parse_reached E s base : is_pystr s -> base_reached E base ->
  (can_parse E s base = Ok true -> exists o, url_new E s base = Ok o) /\
  (can_parse E s base = Ok false -> exists e, url_new E s base = Err e /\ is_url_error e = true) /\
  (forall o, url_new E s base = Ok o -> can_parse E s base = Ok true \/ (can_parse E s base = Err EValue /\ int_limit E <> None)) /\
  (forall e, url_new E s base = Err e -> can_parse E s base = Ok false \/ (can_parse E s base = Err EValue /\ int_limit E <> None)).
Proof. intros H1 H2. exact (can_parse_agrees E s base H1 (base_reached_arg E base H2)). Qed.
Lemma can_parse_no_limit E s base : int_limit E = None -> is_pystr s -> base_reached E base ->
  (can_parse E s base = Ok true <-> exists o, url_new E s base = Ok o) /\
  (can_parse E s base = Ok false <-> exists e, url_new E s base = Err e).
Proof.
  intros H0 H1 H2. destruct (can_parse_reached E s base H1 H2) as (A & B & C & D). split; split; auto.
  - intros (o & Ho). destruct (C o Ho) as [X|[_ X]]; [exact X|congruence].
  - intros X. destruct (B X) as (e & Y & _). eauto.
  - intros (e & He). destruct (D e He) as [X|[_ X]]; [exact X|congruence].
Qed.
(** C49 without the helper predicates of LooseProofs.v *)
Lemma reached_reparse_std E o : limit_ok E -> idna_ok E -> reached E o -> url_v4_ok (o_url o) ->
  (port (o_url o) = Some 0 -> exists h, uhost (o_url o) = Some h /\ h <> HStr [] /\ scheme (o_url o) <> $"file") ->
  (scheme (o_url o) = $"file" -> uhost (o_url o) <> Some (HStr $"localhost") /\
     forall c d l, path (o_url o) = PList ([c; d] :: l) -> std_alpha c = true -> d <> 124) ->
  url_new E (get_href o) BNone = Ok o.
Proof.
  intros H1 H2 H3 H4 H5 H6. apply reached_reparse; auto. intros F. destruct (H6 F) as [A B]. split; [exact A|].
  destruct (path (o_url o)) as [p|[|s l]]; [exact I|exact I|]. intros W.
  unfold is_normalized_windows_drive_letter. rewrite W.
  destruct s as [|c [|d [|x t]]]; try discriminate W. cbn [is_windows_drive_letter andb] in *.
  apply andb_true_iff in W as [W1 W2].
  destruct (d =? 58) eqn:Q; [reflexivity|]. exfalso. apply (B c d l eq_refl); [|apply mem_In in W2; destruct W2 as [<-|[<-|[]]]; [discriminate Q|reflexivity]].
  now apply PathProofs.alpha_class.
Qed.
