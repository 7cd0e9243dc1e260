(** A query appended to an absolute input (C11); components of urlparse (C72). *)
From Coq Require Import Ascii String.
From Coq Require Import NArith ZArith Bool Arith Lia ZifyBool ZifyN ZifyNat List.
From Verif Require Import PyStr PyInt Codec Env HostModel UrlRecord Parser SearchParams UrlApi SpecText SpecHost FlatParser.
From Verif Require Import Lemmas CodecProofs QuoteProofs PyIntProofs LegacyProofs HostProofs LoopProofs FlatProofs TermProofs WfProofs RoundTrip ParserProofs RefProofs PathProofs UrlProps.
From Verif Require Import SpecUrl.
Import ListNotations.
Open Scope N_scope.

Section Qapp.
Context (E : env) (enc q : str).
Notation add r := (rbind r (fun v => flat_tail E enc v (63 :: q))).
Definition no_qf (t : str) : Prop := Forall (fun c => is_qf c = false) t.
Lemma q_span p t : p 63 = false -> span p (t ++ 63 :: q) = (fst (span p t), snd (span p t) ++ 63 :: q).
Proof.
  intros H. induction t as [|c t IH]; [cbn [app span]; now rewrite H|]. cbn [app span]. destruct (p c); [|reflexivity]. rewrite IH. now destruct (span p t).
Qed.
Lemma q_path u t : no_qf t -> flat_path E enc u (t ++ 63 :: q) = add (flat_path E enc u t).
Proof.
  intros H. unfold flat_path. rewrite q_span by reflexivity. rewrite (RefProofs.span_all _ t).
  - reflexivity.
  - apply forallb_forall. intros c Hc. unfold no_qf in H. rewrite Forall_forall in H. now rewrite H.
Qed.
Lemma q_opaque u t : no_qf t -> flat_opaque E enc u (t ++ 63 :: q) = add (flat_opaque E enc u t).
Proof.
  intros H. unfold flat_opaque. rewrite q_span by reflexivity. rewrite (RefProofs.span_all _ t).
  - reflexivity.
  - apply forallb_forall. intros c Hc. unfold no_qf in H. rewrite Forall_forall in H. now rewrite H.
Qed.
Lemma no_qf_tl c t : no_qf (c :: t) -> is_qf c = false /\ no_qf t.
Proof. intros H. now inversion H. Qed.
Lemma no_qf_span p t : no_qf t -> no_qf (snd (span p t)).
Proof. unfold no_qf. rewrite !Forall_forall. intros H c Hc. apply H. now apply (proj2 (span_in p t)). Qed.
Lemma no_qf_drop p t : no_qf t -> no_qf (drop_while p t).
Proof. rewrite <- span_drop. apply no_qf_span. Qed.
Lemma q_path_start u t : no_qf t -> flat_path_start E enc u (t ++ 63 :: q) = add (flat_path_start E enc u t).
Proof.
  intros H. destruct t as [|c t]; cbn [app flat_path_start].
  - change (is_slash 63) with false. change (is_qf 63) with true. cbv iota. destruct (is_special u); [|reflexivity]. apply (q_path u []). constructor.
  - destruct (no_qf_tl c t H) as [H1 H2]. rewrite H1. destruct (is_special u).
    + destruct (is_slash c); [now apply q_path|]. now apply (q_path u (c :: t)).
    + destruct (c =? 47); [now apply q_path|]. now apply (q_path u (c :: t)).
Qed.
Lemma add_bind {A} (r : res A) f : add (rbind r f) = rbind r (fun x => add (f x)).
Proof. destruct r; reflexivity. Qed.
Lemma rbind_ext {A B} (r : res A) (f g : A -> res B) : (forall x, f x = g x) -> rbind r f = rbind r g.
Proof. intros H. destruct r; [apply H|reflexivity]. Qed.
Lemma q_host u a t : no_qf t -> flat_host E enc u a (t ++ 63 :: q) = add (flat_host E enc u a t).
Proof.
  intros H. unfold flat_host. destruct (host_cut false a) as [h [ps|]].
  - destruct (length h =? 0)%nat; [reflexivity|]. rewrite add_bind. apply rbind_ext. intros x. rewrite add_bind. apply rbind_ext. intros p. now apply q_path_start.
  - destruct (is_special u && (length h =? 0)%nat); [reflexivity|]. rewrite add_bind. apply rbind_ext. intros x. now apply q_path_start.
Qed.
Lemma q_authority u t : no_qf t -> flat_authority E enc u (t ++ 63 :: q) = add (flat_authority E enc u t).
Proof.
  intros H. unfold flat_authority. rewrite q_span by (destruct (is_special u); reflexivity).
  pose proof (no_qf_span (fun c => negb (ends_auth (is_special u) c)) t H) as H'. destruct (span _ t) as [a r]. cbn [fst snd] in *.
  destruct (split_last 64 a) as [[ui hp]|]; [|now apply q_host]. destruct (length hp =? 0)%nat; [reflexivity|now apply q_host].
Qed.
Lemma q_file_host u t : no_qf t -> flat_file_host E enc u (t ++ 63 :: q) = add (flat_file_host E enc u t).
Proof.
  intros H. unfold flat_file_host. rewrite q_span by reflexivity.
  pose proof (no_qf_span (fun c => negb (mem c $"/\?#")) t H) as H'. destruct (span (fun c => negb (mem c $"/\?#")) t) as [h r] eqn:Q. cbn [fst snd] in *.
  destruct (is_windows_drive_letter h); [now apply q_path|]. destruct h as [|c h]; [now apply q_path_start|].
  rewrite add_bind. apply rbind_ext. intros x. now apply q_path_start.
Qed.
Lemma q_file t : no_qf t -> flat_file E None enc (t ++ 63 :: q) = add (flat_file E None enc t).
Proof.
  intros H. unfold flat_file. cbv zeta. destruct t as [|c t]; cbn [app].
  - change (is_slash 63) with false. cbv iota. apply (q_path file_url []). constructor.
  - destruct (no_qf_tl c t H) as [H1 H2]. destruct (is_slash c); [|now apply (q_path file_url (c :: t))].
    unfold flat_file_slash. destruct t as [|d t]; cbn [app].
    + change (is_slash 63) with false. cbv iota. apply (q_path file_url []). constructor.
    + destruct (no_qf_tl d t H2) as [H3 H4]. destruct (is_slash d); [now apply q_file_host|]. now apply (q_path file_url (d :: t)).
Qed.
Lemma q_drop t : drop_while is_slash (t ++ 63 :: q) = drop_while is_slash t ++ 63 :: q.
Proof. induction t as [|c t IH]; [reflexivity|]. cbn [app drop_while]. destruct (is_slash c); [exact IH|reflexivity]. Qed.
Lemma q_scheme sch t : no_qf t -> flat_scheme E None enc sch (t ++ 63 :: q) = add (flat_scheme E None enc sch t).
Proof.
  intros H. unfold flat_scheme. cbv zeta. destruct (str_eqb sch $"file"); [now apply q_file|]. destruct (special_scheme sch).
  - rewrite q_drop. apply q_authority. now apply no_qf_drop.
  - destruct t as [|c t]; cbn [app].
    + change (63 =? 47) with false. cbv iota. apply (q_opaque _ []). constructor.
    + destruct (no_qf_tl c t H) as [H1 H2]. destruct (c =? 47); [|now apply (q_opaque _ (c :: t))]. destruct t as [|d t]; cbn [app].
      * change (63 =? 47) with false. cbv iota. apply (q_path _ []). constructor.
      * destruct (no_qf_tl d t H2) as [H3 H4]. destruct (d =? 47); [now apply q_authority|]. now apply (q_path _ (d :: t)).
Qed.
Lemma q_split s sch t : scheme_split s = Some (sch, t) -> scheme_split (s ++ 63 :: q) = Some (sch, t ++ 63 :: q).
Proof.
  destruct s as [|c s]; [discriminate|]. cbn [app scheme_split]. destruct (mem c ASCII_ALPHA); [|discriminate]. rewrite q_span by reflexivity.
  destruct (span is_scheme_char s) as [a [|x r]]; [discriminate|]. cbn [fst snd app]. destruct (x =? 58); [|discriminate]. intros H. injection H as <- <-. reflexivity.
Qed.
Lemma split_in s sch t c : scheme_split s = Some (sch, t) -> In c t -> In c s.
Proof.
  destruct s as [|x s]; [discriminate|]. cbn [scheme_split]. destruct (mem x ASCII_ALPHA); [|discriminate].
  pose proof (span_eq is_scheme_char s) as K. destruct (span is_scheme_char s) as [a [|y r]]; [discriminate|]. cbn [fst snd] in K. destruct (y =? 58); [|discriminate].
  intros H Hc. injection H as <- <-. right. rewrite K. apply in_app_iff. right. now right.
Qed.
Lemma q_main s u : no_qf s -> flat_main E None enc s = Ok u -> flat_main E None enc (s ++ 63 :: q) = flat_tail E enc u (63 :: q).
Proof.
  intros H. unfold flat_main. destruct (scheme_split s) as [[sch t]|] eqn:Q; [|discriminate]. rewrite (q_split _ _ _ Q). intros X.
  rewrite q_scheme; [now rewrite X|]. unfold no_qf in *. rewrite Forall_forall in *. intros c Hc. apply H. eapply split_in; eauto.
Qed.
End Qapp.

(** [clean] of an input that does not end in white space *)
Definition std_tidy (s : str) : Prop := forall a c, s = a ++ [c] -> std_c0_space c = false.
Lemma rstrip_tidy s : std_tidy s -> rstrip_by is_c0_space s = s.
Proof.
  intros H. unfold rstrip_by. destruct s as [|c s _] using rev_ind; [reflexivity|]. rewrite rev_app_distr. cbn [rev app drop_while].
  change (is_c0_space c) with (std_c0_space c). rewrite (H s c eq_refl). cbn [rev]. now rewrite rev_involutive.
Qed.
Lemma drop_tidy s : std_tidy s -> std_tidy (drop_while is_c0_space s).
Proof.
  intros H. induction s as [|c s IH]; [exact H|]. cbn [drop_while]. destruct (is_c0_space c); [|exact H]. apply IH.
  intros a x Q. apply (H (c :: a) x). now rewrite Q.
Qed.
Lemma clean_tidy_app s t : std_tidy s -> vis t -> drop_while is_c0_space s <> [] -> clean (s ++ t) = clean s ++ t.
Proof.
  intros H V N. unfold clean, strip_c0. assert (D : drop_while is_c0_space (s ++ t) = drop_while is_c0_space s ++ t).
  { clear H V. induction s as [|c s IH]; [now destruct N|]. cbn [app drop_while] in *. destruct (is_c0_space c); [now apply IH|reflexivity]. }
  rewrite D, (rstrip_tidy (drop_while is_c0_space s)) by now apply drop_tidy.
  rewrite rstrip_tidy.
  - unfold remove_tabs. rewrite filter_app. f_equal. apply remove_tabs_id. now apply vis_no_tabs.
  - intros a c Q. destruct t as [|y t' _] using rev_ind.
    + rewrite app_nil_r in Q. eapply drop_tidy; eauto.
    + rewrite app_assoc in Q. apply app_inj_tail in Q as [_ <-]. unfold vis in V. apply Forall_app in V as [_ V]. now inversion V.
Qed.
Lemma clean_in s c : In c (clean s) -> In c s.
Proof. unfold clean, strip_c0. intros H. apply (rclean_in (drop_while is_c0_space s)) in H. now apply drop_while_in in H. Qed.

(* ---------- the alphabet of urlencode ---------- *)
Definition form_char (c : N) : Prop :=
  48 <= c <= 57 \/ 65 <= c <= 90 \/ 97 <= c <= 122 \/ In c $"*-._~+%=&".
Definition form_charb (c : N) : bool :=
  ((48 <=? c) && (c <=? 57)) || ((65 <=? c) && (c <=? 90)) || ((97 <=? c) && (c <=? 122)) || mem c $"*-._~+%=&".
Lemma form_charb_spec c : form_charb c = true <-> form_char c.
Proof. unfold form_char. rewrite <- mem_In. unfold form_charb. destruct (mem c $"*-._~+%=&"); lia. Qed.
Lemma percent_byte_form b c : In c (std_percent_byte b) -> b < 256 -> form_charb c = true.
Proof.
  intros H Hb. assert (G : forall d, d < 16 -> form_charb (std_hex_digit d) = true).
  { intros d Hd. unfold form_charb, std_hex_digit. destruct (d <=? 9) eqn:?; lia. }
  unfold std_percent_byte in H. destruct H as [<-|[<-|[<-|[]]]]; [reflexivity| |]; apply G.
  - rewrite N.shiftr_div_pow2. change (2 ^ 4) with 16. apply N.div_lt_upper_bound; lia.
  - change 15 with (N.ones 4). rewrite N.land_ones. apply N.mod_lt. discriminate.
Qed.
Lemma encode1_form c x : is_surrogate c = false -> c <= 1114111 -> In x (std_percent_encode1 urlencoded_set_no_tilde true c) -> form_charb x = true.
Proof.
  unfold std_percent_encode1. intros Hs Hc H. destruct (true && (c =? 32)); [destruct H as [<-|[]]; reflexivity|].
  destruct (urlencoded_set_no_tilde c) eqn:Q.
  - apply in_flat_map in H as (b & Hb & H). eapply percent_byte_form; eauto. eapply is_cont_byte; eauto. now apply enc1_std.
  - destruct H as [<-|[]]. unfold urlencoded_set_no_tilde, urlencoded_set, component_set, userinfo_set, path_set, SpecText.query_set, c0_control_set, one_of in Q.
    cbn [existsb] in Q. unfold form_charb. change ($"*-._~+%=&") with [42; 45; 46; 95; 126; 43; 37; 61; 38]. cbn [mem existsb]. lia.
Qed.
Lemma encode_form s x : is_pystr s -> In x (std_percent_encode urlencoded_set_no_tilde true s) -> form_charb x = true.
Proof.
  intros Hs H. unfold std_percent_encode in H. apply in_flat_map in H as (c & Hc & H).
  pose proof (svs_nosur s) as A. pose proof (svs_le s Hs) as B. unfold is_pystr in B. rewrite Forall_forall in A, B. eapply encode1_form; eauto. 
Qed.
Lemma urlencode_form l x : pystr_pairs l -> In x (urlencode l) -> form_charb x = true.
Proof.
  intros H. rewrite urlencode_no_tilde_set by auto. induction H as [|[n v] t [Hn Hv] Ht IH]; [intros []|]. cbn [std_serialize_with fst snd] in *.
  rewrite !in_app_iff. intros [H|[[<-|[]]|[H|H]]]; [now apply (encode_form n)|reflexivity|now apply (encode_form v)|].
  destruct t as [|p t]; [destruct H|]. destruct H as [<-|H]; [reflexivity|now apply IH].
Qed.
Lemma urlencode_alphabet l x : pystr_pairs l -> In x (urlencode l) -> form_char x.
Proof. intros H1 H2. apply form_charb_spec. eapply urlencode_form; eauto. Qed.
Lemma form_class c (P : N -> bool) : forallb P (ASCII_ALPHANUMERIC ++ $"*-._~+%=&") = true -> form_charb c = true -> P c = true.
Proof.
  intros H Hc. rewrite forallb_forall in H. apply H. apply in_app_iff. unfold form_charb in Hc. destruct (mem c $"*-._~+%=&") eqn:M; [right; now apply mem_In|]. left.
  assert (A : forallb (fun c => mem c ASCII_ALPHANUMERIC) (ASCII_ALPHA ++ ASCII_DIGITS) = true) by (vm_compute; reflexivity). rewrite forallb_forall in A.
  apply mem_In. apply A. apply in_app_iff. destruct (std_alpha c) eqn:X; [left; apply mem_In; now apply alpha_class_inv|].
  right. apply mem_In. apply digit_mem. unfold std_digit. unfold std_alpha in X. lia.
Qed.
Lemma urlencode_qs l u : pystr_pairs l -> qs (query_set u) (urlencode l).
Proof.
  intros H. unfold qs. apply forallb_forall. intros c Hc. apply urlencode_form in Hc; auto. revert Hc. apply form_class.
  unfold query_set. destruct (is_special u); vm_compute; reflexivity.
Qed.
(** a query from urlencode appended to an absolute input without query and fragment *)
Lemma urlencode_embeds E pre l enc u : enc_ok E (normalize_encoding E enc) -> pystr_pairs l ->
  ~ In 63 pre -> ~ In 35 pre -> std_tidy pre -> snd (parse_url E pre BNone enc) = Ok u ->
  snd (parse_url E (pre ++ $"?" ++ urlencode l) BNone enc) = Ok (set_query (Some (urlencode l)) u).
Proof.
  intros He Hl H1 H2 T H. rewrite parse_url_none in *. rewrite parse_new_flat in * by exact I. unfold flat_parse in *.
  change (pre ++ $"?" ++ urlencode l) with (pre ++ 63 :: urlencode l).
  rewrite clean_tidy_app; auto.
  - assert (NQ : no_qf (clean pre)). { apply Forall_forall. intros c Hc. apply clean_in in Hc. rewrite qf_eq. destruct (N.eqb_spec c 63), (N.eqb_spec c 35); subst; tauto. }
    rewrite (q_main E (normalize_encoding E enc) (urlencode l) _ u NQ H).
    cbn [flat_tail]. change (63 =? 63) with true. cbv iota. unfold flat_query. rewrite RefProofs.span_all.
    + rewrite qs_query_id; auto. now apply urlencode_qs.
    + apply forallb_forall. intros c Hc. apply urlencode_form in Hc; auto. revert Hc. apply (form_class c (fun c => negb (c =? 35))). vm_compute. reflexivity.
  - constructor; [reflexivity|]. apply Forall_forall. intros c Hc. apply urlencode_form in Hc; auto. 
    assert (G : negb (is_c0_space c) = true) by (revert Hc; apply (form_class c (fun c => negb (is_c0_space c))); vm_compute; reflexivity). now apply negb_true_iff in G.
  - intros D. unfold clean, strip_c0 in H. rewrite D in H. discriminate H.
Qed.

(* ---------- C72 ---------- *)
(** urllib.parse.urlunparse on the last four components: an empty component is
    dropped with its delimiter *)
Definition std_delim (d : N) (s : str) : str := match s with [] => [] | _ => d :: s end.
Definition std_unparse_tail (r : parse_result) : str :=
  pr_path r ++ std_delim 59 (pr_params r) ++ std_delim 63 (pr_query r) ++ std_delim 35 (pr_fragment r).
Definition std_opt_delim (d : N) (s : option str) : str := match s with None => [] | Some s => d :: s end.
Lemma split1_spec sep s : forall a b, split1 sep s = (a, b) -> ~ In sep a /\ (s = a ++ sep :: b \/ (s = a /\ b = [])).
Proof.
  induction s as [|c s IH]; intros a b; cbn [split1]; [intros H; injection H as <- <-; split; [intros []|now right]|].
  destruct (N.eqb_spec c sep) as [->|N]; [intros H; injection H as <- <-; split; [intros []|now left]|].
  destruct (split1 sep s) as [x y]. intros H. injection H as <- <-. destruct (IH x y eq_refl) as [I [-> | [-> ->]]]; (split; [intros [K|K]; [congruence|tauto]|]); auto.
Qed.
Lemma pr_fields u af : let r := to_parse_result u af in pr_scheme r = scheme u /\ pr_netloc r = pr_netloc (to_parse_result u true).
Proof.
  cbv zeta. unfold to_parse_result. cbv zeta. destruct (split1 59 (serialize_path u)) as [p params]. destruct af; [split; reflexivity|].
  destruct (match query u with Some q => q | None => [] end); [destruct params|]; split; reflexivity.
Qed.
(** the components and the URL *)
Lemma pr_components u : let r := to_parse_result u true in
  ~ In 59 (pr_path r) /\ (serialize_path u = pr_path r ++ 59 :: pr_params r \/ (serialize_path u = pr_path r /\ pr_params r = [])) /\
  pr_query r = match query u with Some q => q | None => [] end /\ pr_fragment r = match fragment u with Some f => f | None => [] end.
Proof.
  cbv zeta. unfold to_parse_result. cbv zeta. destruct (split1 59 (serialize_path u)) as [p params] eqn:Q. cbn [pr_path pr_params pr_query pr_fragment].
  apply split1_spec in Q as [H1 H2]. auto.
Qed.
Lemma pr_netloc_href P u : wf P u -> (uhost u = None -> pr_netloc (to_parse_result u true) = []) /\
  href u = pr_scheme (to_parse_result u true) ++ $":" ++
    match uhost u with
    | Some _ => $"//" ++ pr_netloc (to_parse_result u true)
    | None => match path u with PList ([] :: _ :: _) => $"/." | _ => [] end
    end ++ serialize_path u ++ std_opt_delim 63 (query u) ++ std_opt_delim 35 (fragment u).
Proof.
  intros W. pose proof (proj1 W) as (_ & _ & _ & _ & A & _).
  assert (X : pr_netloc (to_parse_result u true) = (if includes_credentials u then username u ++ match password u with [] => [] | p => $":" ++ p end ++ $"@" else []) ++
    serialize_host u ++ match port u with Some p => $":" ++ dec_str p | None => [] end).
  { unfold to_parse_result. cbv zeta. destruct (split1 59 (serialize_path u)). cbn [pr_netloc]. destruct (port u); [reflexivity|now rewrite app_nil_r]. }
  rewrite X. rewrite href_eq. replace (pr_scheme (to_parse_result u true)) with (scheme u) by (symmetry; apply (pr_fields u true)).
  split.
  - intros H. destruct (includes_credentials u) eqn:C; [destruct A as (h & A & _); [now left|congruence]|].
    destruct (port u) eqn:Pt; [destruct A as (h & A & _); [right; discriminate|congruence]|]. unfold serialize_host. now rewrite H.
  - unfold auth_of_url, dot_str, creds_str, port_str, tail_str, serialize_host, std_opt_delim. f_equal. change ($":") with [58]. cbn [app]. f_equal.
    destruct (uhost u) as [h|]; [|now destruct (path u) as [|[|[] []]]]. change ($"//") with [47; 47]. change ($"@") with [64]. cbn [app]. rewrite <- !app_assoc. reflexivity.
Qed.
Lemma pr_no_fragments u : pr_fragment (to_parse_result u false) = [] /\ std_unparse_tail (to_parse_result u false) = std_unparse_tail (to_parse_result u true).
Proof.
  unfold to_parse_result, std_unparse_tail. cbv zeta. destruct (split1 59 (serialize_path u)) as [p params].
  destruct (query u) as [[|c q]|]; [destruct params as [|d ps]| |destruct params as [|d ps]]; (destruct (fragment u) as [[|x f]|]); cbn [pr_path pr_params pr_query pr_fragment std_delim app];
   split; try reflexivity; rewrite ?app_nil_r, <- ?app_assoc; cbn [app]; rewrite ?app_nil_r; reflexivity.
Qed.
Lemma urlparse_record E s base enc af r : urlparse E s base enc af = Ok r ->
  exists u, snd (parse_url (with_validity E false) s (match base with Some b => BStr b | None => BNone end) enc) = Ok u /\ r = to_parse_result u af.
Proof. unfold urlparse. destruct (snd (parse_url _ _ _ _)) as [u|]; [|discriminate]. intros H. injection H as <-. now exists u. Qed.
Lemma pr_variants u : pr_scheme (to_parse_result u false) = pr_scheme (to_parse_result u true) /\
  pr_netloc (to_parse_result u false) = pr_netloc (to_parse_result u true) /\
  pr_fragment (to_parse_result u false) = [] /\ std_unparse_tail (to_parse_result u false) = std_unparse_tail (to_parse_result u true).
Proof.
  destruct (pr_fields u false) as [A B]. destruct (pr_fields u true) as [C _]. destruct (pr_no_fragments u) as [F G].
  rewrite A, C, B. repeat split; auto.
Qed.
