(** Lemmas about the parser as a whole, on its direct-style form. *)
From Coq Require Import Ascii String.
From Coq Require Import NArith ZArith Bool Arith Lia ZifyBool ZifyN ZifyNat List.
From Verif Require Import PyStr PyInt Codec Env HostModel UrlRecord Parser SpecText SpecHost FlatParser.
From Verif Require Import Lemmas CodecProofs QuoteProofs PyIntProofs LegacyProofs IPv4Proofs IPv6Proofs HostProofs LoopProofs FlatProofs TermProofs WfProofs RoundTrip.
Import ListNotations.
Open Scope N_scope.

(* ---------- exceptions ---------- *)
Definition perr (E : env) (e : exc) : Prop := is_url_error e = true \/ (e = EValue /\ int_limit E <> None).
Definition perrs {A} (E : env) (r : res A) : Prop := forall e, r = Err e -> perr E e.
Lemma perr_url E e : is_url_error e = true -> perr E e. Proof. now left. Qed.
Lemma repr_none E n : repr_fails E n = true -> int_limit E <> None.
Proof. unfold repr_fails. destruct (int_limit E); [discriminate|]. discriminate. Qed.
Lemma snd_wbind' {A B} (m : W A) (f : A -> W B) : snd (wbind m f) = match snd m with Ok a => snd (f a) | Err e => Err e end.
Proof. unfold wbind. destruct m as [l [a|e]]; [|reflexivity]. cbn [snd]. destruct (f a); reflexivity. Qed.
Lemma perrs_ok {A} E (a : A) : perrs E (Ok a). Proof. intros e; discriminate. Qed.
Lemma perrs_url {A} E e : is_url_error e = true -> perrs E (@Err A e).
Proof. intros H e' Q. injection Q as <-. now left. Qed.
Lemma ipv4_numbers_err E parts : perrs E (snd (ipv4_numbers E parts)).
Proof.
  induction parts as [|p t IH]; [apply perrs_ok|]. cbn [ipv4_numbers]. cbv zeta. destruct (_ <? 0)%Z; [now apply perrs_url|].
  rewrite snd_wbind'. destruct (snd (parse_ipv4_number E p)); cbn [snd wlog wret]; rewrite snd_wbind'.
  all: destruct (snd (ipv4_numbers E t)) as [ns|e]; [apply perrs_ok|]; intros e' Q; injection Q as <-; now apply IH.
Qed.
Lemma ipv4_parse_err E s : perrs E (snd (ipv4_parse E s)).
Proof.
  unfold ipv4_parse. cbv zeta. rewrite snd_wbind'. destruct (last (split 46 s) []); cbn [snd wlog wret].
  all: destruct (4 <? _)%nat; [now apply perrs_url|]; rewrite snd_wbind'; pose proof (ipv4_numbers_err E (drop_last_empty (split 46 s))) as H;
    destruct (snd (ipv4_numbers E _)) as [ns|e]; [|intros e' Q; injection Q as <-; now apply H].
  all: assert (U : forall e, Err (if existsb (repr_fails E) ns then EValue else EIPv4) = @Err N e -> perr E e) by
    (intros e Q; injection Q as <-; destruct (existsb (repr_fails E) ns) eqn:X; [right|now left]; split; [reflexivity|];
     apply existsb_In in X as (x & _ & X); now apply repr_none in X).
  all: rewrite snd_wbind'; destruct (existsb (fun x => 255 <? x) ns).
  all: try (destruct (has_validity E && existsb (repr_fails E) ns) eqn:V).
  all: try (apply andb_true_iff in V as [_ V]; rewrite V in U; exact U).
  all: cbn [snd wlog wret];
    repeat match goal with |- perrs _ (snd (if ?b then _ else _)) => destruct b; try exact U end; apply perrs_ok.
Qed.
Lemma host_parse_err E h ns : perrs E (snd (host_parse E h ns)).
Proof.
  destruct h as [|c t] eqn:Q; [apply perrs_ok|]. rewrite <- Q. assert (Hn : h <> []) by (subst; discriminate). clear Q.
  rewrite host_parse_eq by auto. destruct (starts_with [91] h).
  - destruct (ends_with_char h 93); [|now apply perrs_url]. pose proof (ipv6_parse_total E (removelast (tl h))) as T.
    destruct (snd (ipv6_parse E _)); [apply perrs_ok|]. intros e' Q; injection Q as <-. destruct T as [->|(-> & lim & L & _)]; [now left|right].
    rewrite L. split; [reflexivity|discriminate].
  - destruct ns.
    + unfold parse_opaque_host. destruct (existsb _ h); [now apply perrs_url|]. rewrite snd_wbind'. destruct (is_url_units _ _ h); apply perrs_ok.
    + assert (D : perrs E (snd (domain_to_ascii E false (utf8_decode (string_percent_decode h))))).
      { unfold domain_to_ascii. cbv zeta. destruct (icu_to_ascii E _ _); [|now apply perrs_url]. destruct (negb _); [now apply perrs_url|].
        destruct dest; [now apply perrs_url|apply perrs_ok]. }
      destruct (snd (domain_to_ascii E false _)) as [d|e]; [|intros e' Q; injection Q as <-; now apply D].
      destruct (existsb std_forbidden_domain d); [now apply perrs_url|]. destruct (is_ends_in_a_number E d); [|apply perrs_ok].
      pose proof (ipv4_parse_err E d) as V. destruct (snd (ipv4_parse E d)); [apply perrs_ok|]. intros e' Q; injection Q as <-. now apply V.
Qed.
Lemma e_int_err E ps : ps <> [] -> forallb (fun c => mem c ASCII_DIGITS) ps = true -> e_int E ps 10 = None -> int_limit E <> None.
Proof.
  intros Hn H Q L. assert (X : exists v, std_radix_value 10 ps 0 = Some v).
  { apply radix10_total. rewrite <- not_true_iff_false. intros X. apply existsb_In in X as (c & Hc & X). rewrite forallb_forall in H.
    rewrite (H c Hc) in X. discriminate. }
  destruct X as [v X]. unfold e_int in Q. rewrite (py_int_digits (int_limit E) (uni_decimal E) (uni_space E) 10 ps v) in Q; auto; [discriminate|].
  intros _. rewrite L. exact I.
Qed.

Section Err.
Context (E : env) (enc : str) (HE : enc_ok E enc).
Lemma rbind_err {A B} (r : res A) (f : A -> res B) : perrs E r -> (forall a, perrs E (f a)) -> perrs E (rbind r f).
Proof. intros H1 H2. destruct r as [a|e]; [apply H2|]. intros e' Q. injection Q as <-. now apply H1. Qed.
Lemma query_err u rest : is_pystr rest -> perrs E (flat_query E enc u rest).
Proof.
  intros Hp. unfold flat_query. pose proof (span_pystr (fun c => negb (c =? 35)) rest Hp) as [P1 P2]. destruct (span _ rest) as [q t].
  destruct (enc_query_ok E enc u q HE P1) as (x & -> & _). apply perrs_ok.
Qed.
Lemma tail_err u t : is_pystr t -> perrs E (flat_tail E enc u t).
Proof.
  intros Hp. destruct t as [|c t]; [apply perrs_ok|]. cbn [flat_tail]. destruct (c =? 63); [|apply perrs_ok]. apply query_err. now apply (pystr_app [c] t).
Qed.
Lemma path_err u rest : is_pystr rest -> perrs E (flat_path E enc u rest).
Proof.
  intros Hp. unfold flat_path. pose proof (span_pystr (fun c => negb (is_qf c)) rest Hp) as [P1 P2]. destruct (span _ rest). now apply tail_err.
Qed.
Lemma opaque_err u rest : is_pystr rest -> perrs E (flat_opaque E enc u rest).
Proof.
  intros Hp. unfold flat_opaque. pose proof (span_pystr (fun c => negb (is_qf c)) rest Hp) as [P1 P2]. destruct (span _ rest). now apply tail_err.
Qed.
Lemma path_start_err u rest : is_pystr rest -> perrs E (flat_path_start E enc u rest).
Proof.
  intros Hp. unfold flat_path_start. destruct rest as [|c t].
  - destruct (is_special u); [now apply path_err|apply perrs_ok].
  - pose proof (proj2 (proj1 (pystr_app [c] t) Hp)) as Ht.
    destruct (is_special u); [destruct (is_slash c); now apply path_err|]. destruct (is_qf c); [now apply tail_err|]. destruct (c =? 47); now apply path_err.
Qed.
Lemma port_err sch ps : perrs E (flat_port E sch ps).
Proof.
  unfold flat_port. destruct (forallb _ ps) eqn:F; [|now apply perrs_url]. destruct ps as [|d ps]; [apply perrs_ok|].
  destruct (e_int E (d :: ps) 10) eqn:Q.
  - cbv zeta. destruct (65535 <? _); [now apply perrs_url|apply perrs_ok].
  - intros e X. injection X as <-. right. split; [reflexivity|]. eapply e_int_err; eauto. discriminate.
Qed.
Lemma host_err u a t : is_pystr t -> perrs E (flat_host E enc u a t).
Proof.
  intros Ht. unfold flat_host. destruct (host_cut false a) as [h [ps|]].
  - destruct (length h =? 0)%nat; [now apply perrs_url|]. apply rbind_err; [apply host_parse_err|]. intros x. apply rbind_err; [apply port_err|].
    intros p. now apply path_start_err.
  - destruct (_ && _); [now apply perrs_url|]. apply rbind_err; [apply host_parse_err|]. intros x. now apply path_start_err.
Qed.
Lemma authority_err u rest : is_pystr rest -> perrs E (flat_authority E enc u rest).
Proof.
  intros Hp. unfold flat_authority. pose proof (span_pystr (fun c => negb (ends_auth (is_special u) c)) rest Hp) as [P1 P2]. destruct (span _ rest) as [a t].
  destruct (split_last 64 a) as [[ui hp]|]; [|now apply host_err]. destruct (length hp =? 0)%nat; [now apply perrs_url|now apply host_err].
Qed.
Lemma file_host_err u rest : is_pystr rest -> perrs E (flat_file_host E enc u rest).
Proof.
  intros Hp. unfold flat_file_host. pose proof (span_pystr (fun c => negb (mem c $"/\?#")) rest Hp) as [P1 P2]. destruct (span _ rest) as [h t].
  destruct (is_windows_drive_letter h); [now apply path_err|]. destruct h; [now apply path_start_err|].
  apply rbind_err; [apply host_parse_err|]. intros x. now apply path_start_err.
Qed.
Lemma file_slash_err base u rest : is_pystr rest -> perrs E (flat_file_slash E base enc u rest).
Proof.
  intros Hp. unfold flat_file_slash. destruct rest as [|c t]; [now apply path_err|]. destruct (is_slash c); [|now apply path_err].
  apply file_host_err. now apply (pystr_app [c] t).
Qed.
Lemma file_err base rest : is_pystr rest -> perrs E (flat_file E base enc rest).
Proof.
  intros Hp. unfold flat_file. cbv zeta. destruct rest as [|c t].
  - destruct base as [b|]; [|now apply path_err]. destruct (str_eqb (scheme b) $"file"); now apply path_err.
  - destruct (is_slash c); [apply file_slash_err; now apply (pystr_app [c] t)|]. destruct base as [b|]; [|now apply path_err].
    destruct (str_eqb (scheme b) $"file"); [|now apply path_err]. destruct (is_qf c); [now apply tail_err|now apply path_err].
Qed.
Lemma drop_pystr p s : is_pystr s -> is_pystr (drop_while p s).
Proof. apply pystr_sub. apply drop_while_in. Qed.
Lemma relative_slash_err b u rest : is_pystr rest -> perrs E (flat_relative_slash E b enc u rest).
Proof.
  intros Hp. unfold flat_relative_slash. destruct rest as [|c t]; [now apply path_err|]. pose proof (proj2 (proj1 (pystr_app [c] t) Hp)) as Ht.
  destruct (_ && _); [now apply authority_err, drop_pystr|]. destruct (c =? 47); [now apply authority_err|now apply path_err].
Qed.
Lemma relative_err b rest : is_pystr rest -> perrs E (flat_relative E b enc rest).
Proof.
  intros Hp. unfold flat_relative. cbv zeta. destruct rest as [|c t]; [apply perrs_ok|]. pose proof (proj2 (proj1 (pystr_app [c] t) Hp)) as Ht.
  destruct (_ || _); [now apply relative_slash_err|]. destruct (is_qf c); [now apply tail_err|now apply path_err].
Qed.
Lemma scheme_err base sch t : is_pystr t -> perrs E (flat_scheme E base enc sch t).
Proof.
  intros Hp. unfold flat_scheme. cbv zeta. destruct (str_eqb sch $"file"); [now apply file_err|]. destruct (special_scheme sch).
  - destruct base as [b|]; [|now apply authority_err, drop_pystr]. destruct (_ && _); [now apply relative_err|now apply authority_err, drop_pystr].
  - destruct t as [|c t]; [now apply opaque_err|]. pose proof (proj2 (proj1 (pystr_app [c] t) Hp)) as Ht. destruct (c =? 47); [|now apply opaque_err].
    destruct t as [|d t]; [now apply path_err|]. destruct (d =? 47); [apply authority_err; now apply (pystr_app [d] t)|now apply path_err].
Qed.
Lemma main_err base s : is_pystr s -> perrs E (flat_main E base enc s).
Proof.
  intros Hp. unfold flat_main. destruct (scheme_split s) as [[sch t]|] eqn:S.
  - apply scheme_split_ok in S as [_ ->]. apply pystr_app in Hp as [_ Hp]. apply (pystr_app [58] t) in Hp as [_ Hp]. now apply scheme_err.
  - unfold flat_no_scheme. destruct base as [b|]; [|now apply perrs_url]. destruct (has_opaque_path b).
    + destruct s as [|c t]; [now apply perrs_url|]. destruct (c =? 35); [apply perrs_ok|now apply perrs_url].
    + destruct (str_eqb (scheme b) $"file"); [now apply file_err|now apply relative_err].
Qed.
End Err.

Lemma parse_new_err E s base enc : enc_ok E (normalize_encoding E enc) -> is_pystr s -> base_ok base -> perrs E (snd (parse_new E s base enc)).
Proof. intros H1 H2 H3. rewrite parse_new_flat by auto. apply main_err; auto. now apply clean_pystr. Qed.
(** a base argument as a caller can supply it *)
Definition base_arg_ok (base : base_arg) : Prop :=
  match base with BNone => True | BStr t => is_pystr t | BRec b => base_ok (Some b) end.
Lemma parse_url_err E s base enc : enc_ok E (normalize_encoding E enc) -> is_pystr s -> base_arg_ok base -> perrs E (snd (parse_url E s base enc)).
Proof.
  intros H1 H2 H3. unfold parse_url. rewrite snd_wbind'. destruct base as [|t|b]; cbn [snd wret].
  - apply parse_new_err; cbn; auto.
  - rewrite snd_wbind'. pose proof (parse_new_err E t None enc H1 H3 I) as P. destruct (snd (parse_new E t None enc)) as [b|e] eqn:Q.
    + cbn [snd wret]. apply parse_new_err; auto. eapply wf_base_ok. eapply (parse_new_wf E t None enc b); eauto. exact I.
    + intros e' X. injection X as <-. now apply P.
  - apply parse_new_err; auto.
Qed.

(* ---------- white space (C34) ---------- *)
Definition of_run (r : urlrec * res unit) : res urlrec := match r with (u, Ok _) => Ok u | (_, Err e) => Err e end.
Lemma run_log v (b : bool) (m : M unit) u : run (when b (logm v) ;; m) u = run m u.
Proof. unfold run, bind, when, logm, ret. destruct b; destruct (m u) as [l [u' r]]; reflexivity. Qed.
Lemma parse_new_run E s base enc :
  snd (parse_new E s base enc) = of_run (run (run_fsm FSM_FUEL E base (normalize_encoding E enc) None SCHEME_START (clean s)) new_url).
Proof.
  unfold parse_new. match goal with |- snd (match ?m new_url with _ => _ end) = _ =>
    transitivity (of_run (run m new_url)); [unfold run, of_run; destruct (m new_url) as [l [u [x|e]]]; reflexivity|] end.
  f_equal. rewrite run_log. unfold parse_into. rewrite run_log. reflexivity.
Qed.
Lemma parse_new_clean E s s' base enc : clean s = clean s' -> snd (parse_new E s base enc) = snd (parse_new E s' base enc).
Proof. intros H. rewrite !parse_new_run, H. reflexivity. Qed.
Lemma tab_c0 c : is_tab_newline c = true -> is_c0_space c = true.
Proof. unfold is_tab_newline, is_c0_space. lia. Qed.
Lemma remove_tabs_drop s : remove_tabs (drop_while is_c0_space s) = drop_while is_c0_space (remove_tabs s).
Proof.
  induction s as [|c t IH]; [reflexivity|]. cbn [drop_while remove_tabs filter]. destruct (is_tab_newline c) eqn:T; cbn [negb].
  - rewrite (tab_c0 c T). exact IH.
  - cbn [drop_while]. destruct (is_c0_space c); [exact IH|]. cbn [filter]. rewrite T. reflexivity.
Qed.
Lemma filter_rev {A} (f : A -> bool) l : filter f (rev l) = rev (filter f l).
Proof.
  induction l as [|x l IH]; [reflexivity|]. cbn [rev]. rewrite filter_app, IH. cbn [filter]. destruct (f x); [reflexivity|]. now rewrite app_nil_r.
Qed.
Lemma remove_tabs_rstrip s : remove_tabs (rstrip_by is_c0_space s) = rstrip_by is_c0_space (remove_tabs s).
Proof.
  unfold rstrip_by. unfold remove_tabs at 1. rewrite filter_rev. fold (remove_tabs (drop_while is_c0_space (rev s))).
  rewrite remove_tabs_drop. unfold remove_tabs at 1. now rewrite filter_rev.
Qed.
Lemma clean_tabs s : clean (remove_tabs s) = clean s.
Proof.
  unfold clean, strip_c0. rewrite !remove_tabs_rstrip, !remove_tabs_drop. f_equal. f_equal. unfold remove_tabs.
  induction s as [|c t IH]; [reflexivity|]. cbn [filter]. destruct (negb (is_tab_newline c)) eqn:Q; [|exact IH]. cbn [filter]. rewrite Q. now f_equal.
Qed.
(** white space around the input *)
Lemma drop_app p a b : forallb p a = true -> drop_while p (a ++ b) = drop_while p b.
Proof. induction a as [|c a IH]; intros H; [reflexivity|]. cbn [forallb app drop_while] in *. apply andb_true_iff in H as [-> H]. auto. Qed.
Lemma drop_stop p a b : existsb (fun c => negb (p c)) a = true -> drop_while p (a ++ b) = drop_while p a ++ b.
Proof.
  induction a as [|c a IH]; intros H; [discriminate|]. cbn [existsb app drop_while] in *. destruct (p c); [|reflexivity]. auto.
Qed.
Lemma drop_all p a : forallb p a = true -> drop_while p a = [].
Proof. intros H. rewrite <- (app_nil_r a). now rewrite drop_app. Qed.
Lemma forallb_rev {A} (f : A -> bool) l : forallb f (rev l) = forallb f l.
Proof. induction l as [|x l IH]; [reflexivity|]. cbn [rev forallb]. rewrite forallb_app, IH. cbn [forallb]. rewrite andb_true_r. apply andb_comm. Qed.
Lemma rstrip_app p a w : forallb p w = true -> rstrip_by p (a ++ w) = rstrip_by p a.
Proof. intros H. unfold rstrip_by. rewrite rev_app_distr, drop_app; [reflexivity|]. now rewrite forallb_rev. Qed.
Lemma strip_app a s b : forallb is_c0_space a = true -> forallb is_c0_space b = true -> strip_c0 (a ++ s ++ b) = strip_c0 s.
Proof.
  intros H1 H2. unfold strip_c0. rewrite drop_app by auto. destruct (existsb (fun c => negb (is_c0_space c)) s) eqn:X.
  - rewrite drop_stop by auto. now rewrite rstrip_app.
  - assert (A : forallb is_c0_space s = true).
    { apply forallb_forall. intros c Hc. rewrite existsb_false in X. specialize (X c Hc). cbv beta in X. now destruct (is_c0_space c). }
    rewrite (drop_all _ s A). rewrite (drop_all _ (s ++ b)); [reflexivity|]. rewrite forallb_app, A, H2. reflexivity.
Qed.
Lemma clean_strip a s b : forallb is_c0_space a = true -> forallb is_c0_space b = true -> clean (a ++ s ++ b) = clean s.
Proof. intros H1 H2. unfold clean. now rewrite strip_app. Qed.

(** cleaning something that starts with a visible prefix *)
Definition vis (s : str) : Prop := Forall (fun c => is_c0_space c = false) s.
Definition rclean (t : str) : str := remove_tabs (rstrip_by is_c0_space t).
Lemma rstrip_vis a t : vis a -> rstrip_by is_c0_space (a ++ t) = a ++ rstrip_by is_c0_space t.
Proof.
  intros H. unfold rstrip_by. rewrite rev_app_distr. destruct (existsb (fun c => negb (is_c0_space c)) (rev t)) eqn:X.
  - rewrite drop_stop by auto. rewrite rev_app_distr, rev_involutive. reflexivity.
  - assert (A : forallb is_c0_space (rev t) = true).
    { apply forallb_forall. intros c Hc. rewrite existsb_false in X. specialize (X c Hc). cbv beta in X. now destruct (is_c0_space c). }
    rewrite drop_app, (drop_all _ _ A) by auto. cbn [rev app]. rewrite app_nil_r. rewrite drop_while_stop; [now rewrite rev_involutive|].
    destruct (rev a) as [|c l] eqn:Q; [exact I|]. unfold vis in H. rewrite Forall_forall in H. apply H. apply in_rev. rewrite Q. now left.
Qed.
Lemma remove_tabs_vis a t : vis a -> remove_tabs (a ++ t) = a ++ remove_tabs t.
Proof.
  intros H. unfold remove_tabs. rewrite filter_app. f_equal. induction H as [|c a Hc Ha IH]; [reflexivity|]. cbn [filter].
  replace (negb (is_tab_newline c)) with true; [now f_equal|]. destruct (is_tab_newline c) eqn:T; [|reflexivity]. apply tab_c0 in T. congruence.
Qed.
Lemma clean_vis a t : vis a -> a <> [] -> clean (a ++ t) = a ++ rclean t.
Proof.
  intros H Hn. unfold clean, strip_c0. rewrite drop_while_stop.
  - rewrite rstrip_vis, remove_tabs_vis by auto. reflexivity.
  - destruct a; [congruence|]. now inversion H.
Qed.

Lemma vis_app a b : vis (a ++ b) <-> vis a /\ vis b.
Proof. apply Forall_app. Qed.
Lemma rclean_vis s : vis s -> rclean s = s.
Proof.
  intros H. unfold rclean. rewrite <- (app_nil_r s) at 1. rewrite rstrip_vis by auto. unfold rstrip_by. cbn [rev drop_while]. 
  rewrite remove_tabs_vis by auto. cbn. apply app_nil_r.
Qed.
Lemma rclean_app a t : vis a -> rclean (a ++ t) = a ++ rclean t.
Proof. intros H. unfold rclean. now rewrite rstrip_vis, remove_tabs_vis. Qed.
Lemma rclean_in t c : In c (rclean t) -> In c t.
Proof. unfold rclean, remove_tabs, rstrip_by. intros H. apply filter_In in H as [H _]. apply in_rev in H. apply drop_while_in, in_rev in H. exact H. Qed.
Lemma rclean_pystr t : is_pystr t -> is_pystr (rclean t).
Proof. apply pystr_sub. apply rclean_in. Qed.

(* ---------- schemes (C35) ---------- *)
Definition scheme_syntax (s : str) : Prop :=
  match s with c :: t => mem c ASCII_ALPHA = true /\ forallb is_scheme_char t = true | [] => False end.
Lemma scheme_split_syntax s t : scheme_syntax s -> scheme_split (s ++ 58 :: t) = Some (s, t).
Proof.
  intros H. destruct s as [|c s]; [destruct H|]. destruct H as [H1 H2]. cbn [app scheme_split]. rewrite H1, span_app; [reflexivity| |reflexivity].
  apply Forall_forall. rewrite forallb_forall in H2. exact H2.
Qed.
Lemma scheme_syntax_vis s : scheme_syntax s -> vis (s ++ [58]) /\ s <> [].
Proof.
  intros H. destruct s as [|c s]; [destruct H|]. destruct H as [H1 H2]. split; [|discriminate]. apply vis_app. split; [|constructor; [reflexivity|constructor]].
  assert (Q : forallb (fun c => negb (is_c0_space c)) (ASCII_ALPHANUMERIC ++ $"+-.") = true) by (vm_compute; reflexivity).
  rewrite forallb_forall in Q. constructor.
  - apply negb_true_iff, Q. apply in_app_iff. left. apply mem_In in H1. assert (R : forallb (fun c => mem c ASCII_ALPHANUMERIC) ASCII_ALPHA = true) by (vm_compute; reflexivity).
    rewrite forallb_forall in R. apply mem_In. now apply R.
  - apply Forall_forall. intros x Hx. rewrite forallb_forall in H2. specialize (H2 x Hx). apply negb_true_iff, Q. apply mem_In. rewrite mem_app. exact H2.
Qed.
Lemma flat_scheme_input E s t base enc : scheme_syntax s ->
  flat_parse E (s ++ 58 :: t) base enc = flat_scheme E base (normalize_encoding E enc) (lower s) (rclean t).
Proof.
  intros H. unfold flat_parse. destruct (scheme_syntax_vis s H) as [V N]. change (s ++ 58 :: t) with (s ++ [58] ++ t). rewrite app_assoc.
  rewrite clean_vis; [|auto|destruct s; discriminate]. rewrite <- app_assoc. unfold flat_main. cbn [app]. now rewrite scheme_split_syntax.
Qed.

(** the scheme is never changed after it has been read *)
Definition has_scheme (s : str) (r : res urlrec) : Prop := match r with Ok u => scheme u = s | Err _ => True end.
Section Scheme.
Context (E : env) (enc : str).
Lemma rbind_scheme {A} s (r : res A) f : (forall a, has_scheme s (f a)) -> has_scheme s (rbind r f).
Proof. intros H. destruct r; [apply H|exact I]. Qed.
Lemma frag_scheme u t : scheme (flat_frag u t) = scheme u. Proof. destruct t; reflexivity. Qed.
Lemma tail_scheme u t : has_scheme (scheme u) (flat_tail E enc u t).
Proof.
  destruct t as [|c t]; [reflexivity|]. cbn [flat_tail]. destruct (c =? 63); [|apply frag_scheme]. unfold flat_query. destruct (span _ t) as [q f].
  destruct (enc_query _ _ _ _); [|exact I]. cbn. now rewrite frag_scheme.
Qed.
Lemma path_scheme u t : has_scheme (scheme u) (flat_path E enc u t).
Proof. unfold flat_path. destruct (span _ t). apply (tail_scheme (set_path _ u)). Qed.
Lemma opaque_scheme u t : has_scheme (scheme u) (flat_opaque E enc u t).
Proof. unfold flat_opaque. destruct (span _ t). apply (tail_scheme (set_path _ u)). Qed.
Lemma path_start_scheme u t : has_scheme (scheme u) (flat_path_start E enc u t).
Proof.
  unfold flat_path_start. destruct t as [|c t]; [destruct (is_special u); [apply path_scheme|reflexivity]|].
  destruct (is_special u); [apply path_scheme|]. destruct (is_qf c); [apply tail_scheme|apply path_scheme].
Qed.
Lemma host_scheme u a t : has_scheme (scheme u) (flat_host E enc u a t).
Proof.
  unfold flat_host. destruct (host_cut false a) as [h [ps|]].
  - destruct (_ =? _)%nat; [exact I|]. apply rbind_scheme; intros x. apply rbind_scheme; intros p. apply (path_start_scheme (set_port p (set_host (Some x) u))).
  - destruct (_ && _); [exact I|]. apply rbind_scheme; intros x. apply (path_start_scheme (set_host (Some x) u)).
Qed.
Lemma authority_scheme u t : has_scheme (scheme u) (flat_authority E enc u t).
Proof.
  unfold flat_authority. destruct (span _ t) as [a r]. destruct (split_last 64 a) as [[ui hp]|]; [|apply host_scheme].
  destruct (_ =? _)%nat; [exact I|]. replace (scheme u) with (scheme (set_creds ui u)); [apply host_scheme|]. unfold set_creds. destruct (split_first 58 ui). reflexivity.
Qed.
Lemma file_host_scheme u t : has_scheme (scheme u) (flat_file_host E enc u t).
Proof.
  unfold flat_file_host. destruct (span _ t) as [h r]. destruct (is_windows_drive_letter h); [apply path_scheme|].
  destruct h; [apply (path_start_scheme (set_host (Some (HStr [])) u))|]. apply rbind_scheme; intros x. apply (path_start_scheme (set_host (Some (no_localhost x)) u)).
Qed.
Lemma file_slash_scheme base u t : has_scheme (scheme u) (flat_file_slash E base enc u t).
Proof.
  assert (S : scheme (file_slash_url base t u) = scheme u).
  { unfold file_slash_url. destruct base as [b|]; [|reflexivity]. destruct (str_eqb _ _); [|reflexivity]. cbv zeta. destruct (path b) as [|[|s l]]; try reflexivity. destruct (_ && _); reflexivity. }
  unfold flat_file_slash. rewrite <- S. destruct t as [|c t]; [apply path_scheme|]. destruct (is_slash c); [|apply path_scheme]. rewrite S. apply file_host_scheme.
Qed.
Lemma file_scheme base t : has_scheme $"file" (flat_file E base enc t).
Proof.
  unfold flat_file. cbv zeta. destruct t as [|c t].
  - destruct base as [b|]; [|apply (path_scheme file_url)]. destruct (str_eqb _ _); [apply (path_scheme (file_base_url b file_url))|apply (path_scheme file_url)].
  - destruct (is_slash c); [apply (file_slash_scheme base file_url)|]. destruct base as [b|]; [|apply (path_scheme file_url)].
    destruct (str_eqb _ _); [|apply (path_scheme file_url)]. destruct (is_qf c); [apply (tail_scheme (file_base_url b file_url))|].
    match goal with |- has_scheme _ (flat_path _ _ ?v _) => apply (path_scheme v) end.
Qed.
Lemma relative_slash_scheme b u t : has_scheme (scheme u) (flat_relative_slash E b enc u t).
Proof.
  unfold flat_relative_slash. destruct t as [|c t]; [apply (path_scheme (base_auth b u))|]. destruct (_ && _); [apply authority_scheme|].
  destruct (c =? 47); [apply authority_scheme|apply (path_scheme (base_auth b u))].
Qed.
Lemma relative_scheme b t : has_scheme (scheme b) (flat_relative E b enc t).
Proof.
  unfold flat_relative. cbv zeta. destruct t as [|c t]; [reflexivity|]. destruct (_ || _); [apply (relative_slash_scheme b (set_scheme (scheme b) new_url))|].
  destruct (is_qf c); [apply (tail_scheme (base_all b (set_scheme (scheme b) new_url)))|].
  match goal with |- has_scheme _ (flat_path _ _ ?v _) => apply (path_scheme v) end.
Qed.
Lemma scheme_scheme base s t : has_scheme s (flat_scheme E base enc s t).
Proof.
  unfold flat_scheme. cbv zeta. destruct (str_eqb s $"file") eqn:F; [apply str_eqb_eq in F; subst; apply file_scheme|].
  destruct (special_scheme s).
  - destruct base as [b|]; [|apply (authority_scheme (set_scheme s new_url))].
    destruct (str_eqb (scheme b) s && _) eqn:Q; [|apply (authority_scheme (set_scheme s new_url))].
    apply andb_true_iff in Q as [Q _]. apply str_eqb_eq in Q. rewrite <- Q. apply relative_scheme.
  - destruct t as [|c t]; [apply (opaque_scheme (set_scheme s new_url))|]. destruct (c =? 47); [|apply (opaque_scheme (set_scheme s new_url))].
    destruct t as [|d t]; [apply (path_scheme (set_scheme s new_url))|].
    destruct (d =? 47); [apply (authority_scheme (set_scheme s new_url))|apply (path_scheme (set_scheme s new_url))].
Qed.
End Scheme.
