(** The URL-level properties in the vocabulary of SpecUrl.v, derived from the
    lemmas on the direct-style parser. *)
From Coq Require Import Ascii String.
From Coq Require Import NArith ZArith Bool Arith Lia ZifyBool ZifyN ZifyNat List.
From Verif Require Import PyStr PyInt Codec Env HostModel UrlRecord Parser SearchParams UrlApi SpecText SpecHost FlatParser.
From Verif Require Import Lemmas CodecProofs QuoteProofs PyIntProofs LegacyProofs HostProofs LoopProofs FlatProofs TermProofs WfProofs RoundTrip ParserProofs RefProofs PathProofs.
From Verif Require Import IPv4Proofs IPv6Proofs IPv6Conf IPv4Proofs SpecUrl.
Import ListNotations.
Open Scope N_scope.

(** records a caller can obtain from parse_url: Python strings as input, an
    encoding that is UTF-8 or ASCII-compatible, and as base nothing, a string or a
    record obtained before *)
Inductive parsed (E : env) : urlrec -> Prop :=
| parsed_none s enc u : is_pystr s -> enc_ok E (normalize_encoding E enc) ->
    snd (parse_url E s BNone enc) = Ok u -> parsed E u
| parsed_str s b enc u : is_pystr s -> is_pystr b -> enc_ok E (normalize_encoding E enc) ->
    snd (parse_url E s (BStr b) enc) = Ok u -> parsed E u
| parsed_rec s b enc u : is_pystr s -> parsed E b -> enc_ok E (normalize_encoding E enc) ->
    snd (parse_url E s (BRec b) enc) = Ok u -> parsed E u.
(** bases of that kind *)
Definition base_parsed (E : env) (base : base_arg) : Prop :=
  match base with BNone => True | BStr b => is_pystr b | BRec b => parsed E b end.

Lemma parse_url_none E s enc : snd (parse_url E s BNone enc) = snd (parse_new E s None enc).
Proof. unfold parse_url. rewrite snd_wbind'. reflexivity. Qed.
Lemma parse_url_rec E s b enc : snd (parse_url E s (BRec b) enc) = snd (parse_new E s (Some b) enc).
Proof. unfold parse_url. rewrite snd_wbind'. reflexivity. Qed.
Lemma parse_url_str E s b enc : snd (parse_url E s (BStr b) enc) =
  match snd (parse_new E b None enc) with Ok u => snd (parse_new E s (Some u) enc) | Err e => Err e end.
Proof. unfold parse_url. rewrite snd_wbind', snd_wbind'. destruct (snd (parse_new E b None enc)); reflexivity. Qed.
Lemma parsed_wf E u : parsed E u -> wf (hostval E) u.
Proof.
  induction 1 as [s enc u Hs He H|s b enc u Hs Hb He H|s b enc u Hs Hb IH He H].
  - rewrite parse_url_none in H. eapply (parse_new_wf E s None enc u); eauto. exact I.
  - rewrite parse_url_str in H. destruct (snd (parse_new E b None enc)) as [v|] eqn:Q; [|discriminate].
    eapply (parse_new_wf E s (Some v) enc u); eauto. eapply (parse_new_wf E b None enc v); eauto. exact I.
  - rewrite parse_url_rec in H. eapply (parse_new_wf E s (Some b) enc u); eauto.
Qed.
Lemma parsed_base_ok E u : parsed E u -> base_ok (Some u).
Proof. intros H. eapply wf_base_ok. exact (parsed_wf E u H). Qed.
Lemma base_parsed_arg E base : base_parsed E base -> base_arg_ok base.
Proof. destruct base; cbn; auto. intros H. now apply (parsed_base_ok E) in H. Qed.
(** the base, once parsed *)
Inductive base_of (E : env) (enc : str) : base_arg -> option urlrec -> Prop :=
| bo_none : base_of E enc BNone None
| bo_rec b : base_of E enc (BRec b) (Some b)
| bo_str t b : snd (parse_new E t None enc) = Ok b -> base_of E enc (BStr t) (Some b).
Lemma parse_url_of E base enc : (exists b, base_of E enc base b /\ forall s, snd (parse_url E s base enc) = snd (parse_new E s b enc)) \/
  (exists e, forall s, snd (parse_url E s base enc) = Err e).
Proof.
  destruct base as [|t|b].
  - left. exists None. split; [constructor|]. intros. apply parse_url_none.
  - destruct (snd (parse_new E t None enc)) as [u|e] eqn:Q.
    + left. exists (Some u). split; [now constructor|]. intros. rewrite parse_url_str, Q. reflexivity.
    + right. exists e. intros. rewrite parse_url_str, Q. reflexivity.
  - left. exists (Some b). split; [constructor|]. intros. apply parse_url_rec.
Qed.
Lemma base_of_ok E enc base b : enc_ok E (normalize_encoding E enc) -> base_arg_ok base -> base_of E enc base b -> base_ok b.
Proof.
  intros He H B. destruct B as [|b|t b Q]; [exact I|exact H|]. eapply wf_base_ok. eapply (parse_new_wf E t None enc b); eauto. exact I.
Qed.

(* ---------- the special schemes ---------- *)
Lemma special_spec s : special_scheme s = true <-> std_special s.
Proof.
  unfold special_scheme, std_special, str_in. rewrite existsb_exists. split.
  - intros (x & Hx & Q). apply str_eqb_eq in Q. subst. exact Hx.
  - intros H. exists s. split; [exact H|now apply str_eqb_eq].
Qed.
Lemma default_port_spec s p : std_default_port s p -> default_port s = Some p.
Proof. unfold std_default_port. intros H. cbn [std_special_schemes In] in H. repeat (destruct H as [H|H]; [first [discriminate H|injection H as <- <-; reflexivity]|]). destruct H. Qed.
Lemma lower_std s : lower s = std_lower s. Proof. reflexivity. Qed.

(* ---------- C29, C36, C37 ---------- *)
Lemma scheme_ok_std s : scheme_ok s -> std_scheme s = true /\ std_lower s = s.
Proof.
  intros H. split; [|rewrite <- lower_std; now apply scheme_lower]. destruct s as [|c t]; [destruct H|]. destruct H as [H1 H2].
  unfold std_scheme. apply andb_true_iff. split; [unfold std_alpha; now rewrite H1, orb_true_r|].
  apply forallb_forall. intros x Hx. rewrite forallb_forall in H2. specialize (H2 x Hx). unfold scheme_tail_char in H2. unfold std_scheme_char, std_alpha, std_digit. lia.
Qed.
Lemma wf_invariant P u : wf P u -> url_invariant u.
Proof.
  intros ((A1 & A2 & A3 & A4 & A5 & A6) & B & C). constructor.
  - now apply scheme_ok_std.
  - intros S. apply special_spec in S. unfold wf_host, is_special in A4. destruct (uhost u); [discriminate|congruence].
  - intros S. apply special_spec in S. unfold wf_path, is_special in B. destruct (path u) as [s|l]; [destruct B as (_ & B & _); congruence|].
    destruct l as [|s l]; [|now exists s, l]. destruct B as (_ & B & _). specialize (B eq_refl) as [B _]. congruence.
  - intros S NF Q. apply special_spec in S. unfold wf_host, is_special in A4. rewrite Q in A4. destruct A4 as [[_ A4]|[A4 _]]; [now apply NF, A4|congruence].
  - intros s Q. unfold wf_path in B. rewrite Q in B. tauto.
  - intros H. destruct A5 as (h & H1 & H2 & H3).
    + unfold includes_credentials. destruct H as [H|[H|H]]; [left; destruct (username u); [congruence|reflexivity]|left; destruct (password u); [congruence|apply orb_true_r]|now right].
    + rewrite H1. repeat split; [discriminate|congruence|exact H3].
  - intros p Hp. now apply A6 in Hp.
Qed.
Lemma is_dot_spec s : is_dot s = false -> std_single_dot s = false /\ std_double_dot s = false.
Proof. unfold is_dot. rewrite dd_spec, sd_spec. intros H. apply orb_false_iff in H. tauto. Qed.
Lemma wf_segments P u l s : wf P u -> path u = PList l -> In s l -> clean_segment (scheme u) s.
Proof.
  intros (A & B & C) Q I. unfold wf_path in B. rewrite Q in B. destruct B as (B & _). rewrite Forall_forall in B. destruct (B s I) as (B1 & B2 & B3 & B4).
  apply is_dot_spec in B4 as [D1 D2].
  assert (N : forall c, mem c (ALWAYS_SAFE ++ SAFE_PATH) = false -> ~ In c s) by (intros c Hc; apply mem_not_In; eapply qs_no; eauto).
  repeat split; auto; try (apply N; reflexivity); [now apply mem_not_In|]. intros S. apply special_spec in S. apply mem_not_In. now apply B3.
Qed.
Lemma wf_default_port P u p : wf P u -> port u = Some p -> ~ std_default_port (scheme u) p.
Proof. intros ((_ & _ & _ & _ & _ & A) & _) H D. apply default_port_spec in D. now apply A in H as [_ H]. Qed.

(* ---------- C30 - C33 ---------- *)
Lemma parse_round_trip E u enc : limit_ok E -> idna_ok E -> enc_ok E (normalize_encoding E enc) -> parsed E u -> url_v4_ok u ->
  snd (parse_url E (href u) BNone enc) = Ok u.
Proof.
  intros H1 H2 H3 H4 H5. rewrite parse_url_none. apply reparse_record; auto; [exact I|]. apply wf_val_rt; auto. now apply parsed_wf.
Qed.
Lemma reparse_any E u base enc : limit_ok E -> idna_ok E -> enc_ok E (normalize_encoding E enc) -> parsed E u -> base_ok base ->
  snd (parse_new E (href u) base enc) = Ok (fix_v4 u).
Proof. intros. apply reparse_fix; auto. now apply parsed_wf. Qed.
Lemma base_independent E u base enc : limit_ok E -> idna_ok E -> enc_ok E (normalize_encoding E enc) -> parsed E u -> base_parsed E base ->
  (forall b, base = BStr b -> exists v, snd (parse_url E b BNone enc) = Ok v) ->
  snd (parse_url E (href u) base enc) = snd (parse_url E (href u) BNone enc).
Proof.
  intros H1 H2 H3 H4 H5 H6. rewrite parse_url_none, (reparse_any E u None enc) by (auto; exact I).
  destruct base as [|b|b].
  - rewrite parse_url_none. apply reparse_any; auto.
  - destruct (H6 b eq_refl) as [v V]. rewrite parse_url_none in V. rewrite parse_url_str, V. apply reparse_any; auto.
    eapply wf_base_ok. eapply (parse_new_wf E b None enc v); eauto. exact I.
  - rewrite parse_url_rec. apply reparse_any; auto. now apply (parsed_base_ok E).
Qed.
Lemma enc_utf8 E : enc_ok E (normalize_encoding E UTF8).
Proof. left. reflexivity. Qed.
Lemma with_validity_parse E b : normalize_encoding (with_validity E b) UTF8 = normalize_encoding E UTF8.
Proof. reflexivity. Qed.
Lemma href_fixed E s base o : limit_ok E -> idna_ok E -> is_pystr s -> base_parsed (with_validity E false) base ->
  url_new E s base = Ok o -> exists o', url_new E (get_href o) BNone = Ok o' /\ get_href o' = get_href o.
Proof.
  intros H1 H2 Hs Hb H. unfold url_new in *. set (E' := with_validity E false) in *.
  assert (L : limit_ok E') by exact H1. assert (I' : idna_ok E') by (destruct H2 as [A B]; constructor; [exact A|exact B]).
  destruct (snd (parse_url E' s base UTF8)) as [u|] eqn:Q; [|discriminate]. injection H as <-. unfold get_href. cbn [o_url].
  assert (P : parsed E' u). { destruct base as [|b|b]; [apply (parsed_none E' s UTF8)|apply (parsed_str E' s b UTF8)|apply (parsed_rec E' s b UTF8)]; auto; apply enc_utf8. }
  rewrite parse_url_none, (reparse_any E' u None UTF8) by (auto; try exact I; apply enc_utf8).
  eexists. split; [reflexivity|]. cbn [o_url]. apply fix_v4_href.
Qed.
Lemma href_printable E u c : limit_ok E -> idna_ok E -> parsed E u -> In c (href u) ->
  33 <= c <= 126 \/ (c = 32 /\ exists s, path u = POpaque s /\ In c s).
Proof.
  intros H1 H2 H3 Hc. rewrite <- fix_v4_href in Hc. pose proof (wf_fix E u H1 H2 (parsed_wf E u H3)) as W.
  assert (P : path (fix_v4 u) = path u) by (unfold fix_v4; destruct (uhost u) as [[| |]|]; reflexivity).
  rewrite <- P. destruct (href_chars E (fix_v4 u) W c Hc) as [K|K]; [left; lia|now right].
Qed.

(* ---------- C34, C35 ---------- *)
Lemma tabs_ignored E s base enc : snd (parse_url E (std_strip_tabs s) base enc) = snd (parse_url E s base enc).
Proof.
  destruct (parse_url_of E base enc) as [(b & _ & Q)|(e & Q)]; [|now rewrite !Q]. rewrite !Q. apply parse_new_clean. exact (clean_tabs s).
Qed.
Lemma spaces_ignored E a s c base enc : forallb std_c0_space a = true -> forallb std_c0_space c = true ->
  snd (parse_url E (a ++ s ++ c) base enc) = snd (parse_url E s base enc).
Proof.
  intros H1 H2. destruct (parse_url_of E base enc) as [(b & _ & Q)|(e & Q)]; [|now rewrite !Q]. rewrite !Q. apply parse_new_clean. now apply clean_strip.
Qed.
Lemma digit_mem c : std_digit c = true -> mem c ASCII_DIGITS = true.
Proof.
  intros H. unfold std_digit in H. apply mem_In. assert (Q : forall n, (n < 10)%nat -> In (N.of_nat n + 48) ASCII_DIGITS).
  { intros n Hn. do 10 (destruct n as [|n]; [vm_compute; tauto|]). lia. }
  specialize (Q (N.to_nat (c - 48)) ltac:(lia)). now replace (N.of_nat (N.to_nat (c - 48)) + 48) with c in Q by lia.
Qed.
Lemma scheme_char_spec c : std_scheme_char c = true -> is_scheme_char c = true.
Proof.
  unfold std_scheme_char, is_scheme_char. intros H.
  assert (A : forallb (fun c => mem c ASCII_ALPHANUMERIC) (ASCII_ALPHA ++ ASCII_DIGITS) = true) by (vm_compute; reflexivity).
  rewrite forallb_forall in A. destruct (std_alpha c) eqn:Q1.
  - rewrite A; [reflexivity|]. apply in_app_iff. left. apply mem_In. now apply alpha_class_inv.
  - destruct (std_digit c) eqn:Q2.
    + rewrite A; [reflexivity|]. apply in_app_iff. right. apply mem_In. now apply digit_mem.
    + cbn [orb] in H. apply orb_true_iff. right. change ($"+-.") with [43; 45; 46]. cbn [mem existsb]. lia.
Qed.
Lemma scheme_spec s : std_scheme s = true -> scheme_syntax s.
Proof.
  destruct s as [|c t]; [discriminate|]. cbn [std_scheme scheme_syntax]. intros H. apply andb_true_iff in H as [H1 H2].
  split; [now apply alpha_class_inv|]. apply forallb_forall. intros x Hx. rewrite forallb_forall in H2. apply scheme_char_spec. now apply H2.
Qed.
Lemma scheme_case_flat E s s' t b enc : std_scheme s = true -> std_scheme s' = true -> std_lower s = std_lower s' ->
  flat_parse E (s ++ 58 :: t) b enc = flat_parse E (s' ++ 58 :: t) b enc.
Proof. intros H1 H2 H3. rewrite !flat_scheme_input by now apply scheme_spec. rewrite !lower_std, H3. reflexivity. Qed.
Lemma std_lower_scheme s s' : std_scheme s = true -> std_lower s = std_lower s' -> std_scheme s' = true.
Proof.
  assert (A : forall c d, std_lower1 c = std_lower1 d -> std_alpha c = std_alpha d /\ std_scheme_char c = std_scheme_char d).
  { intros c d H. unfold std_scheme_char, std_alpha, std_digit. unfold std_lower1 in H.
    destruct ((65 <=? c) && (c <=? 90)) eqn:X; destruct ((65 <=? d) && (d <=? 90)) eqn:Y; split; lia. }
  destruct s as [|c t]; [discriminate|]. destruct s' as [|d t']; [discriminate|]. cbn [std_lower map std_scheme]. intros H Q. 
  pose proof (f_equal (@tl N) Q) as Q2. pose proof (f_equal (@hd N 0) Q) as Q1. cbn [hd tl] in Q1, Q2. apply A in Q1 as [Q1 _]. rewrite <- Q1.
  apply andb_true_iff in H as [-> H]. cbn [andb]. clear - A H Q2. revert t' Q2. induction t as [|x t IH]; intros [|y t'] Q; try discriminate; [reflexivity|].
  cbn [map forallb] in *. pose proof (f_equal (@tl N) Q) as Q2. pose proof (f_equal (@hd N 0) Q) as Q1. cbn [hd tl] in Q1, Q2. apply A in Q1 as [_ Q1].
  apply andb_true_iff in H as [H1 H2]. now rewrite <- Q1, H1, IH.
Qed.
Lemma scheme_case E s s' t base enc : enc_ok E (normalize_encoding E enc) -> base_parsed E base -> std_scheme s = true -> std_lower s = std_lower s' ->
  snd (parse_url E (s ++ $":" ++ t) base enc) = snd (parse_url E (s' ++ $":" ++ t) base enc).
Proof.
  intros He Hb H1 H3. pose proof (std_lower_scheme s s' H1 H3) as H2. destruct (parse_url_of E base enc) as [(b & B & Q)|(e & Q)]; [|now rewrite !Q]. rewrite !Q.
  pose proof (base_of_ok E enc base b He (base_parsed_arg E base Hb) B) as O. rewrite !parse_new_flat by auto. now apply scheme_case_flat.
Qed.
Lemma scheme_stored E s t base enc u : enc_ok E (normalize_encoding E enc) -> base_parsed E base -> std_scheme s = true ->
  snd (parse_url E (s ++ $":" ++ t) base enc) = Ok u -> scheme u = std_lower s.
Proof.
  intros He Hb H1. destruct (parse_url_of E base enc) as [(b & B & Q)|(e & Q)]; [|rewrite !Q; discriminate]. rewrite !Q.
  pose proof (base_of_ok E enc base b He (base_parsed_arg E base Hb) B) as O. rewrite !parse_new_flat by auto.
  change (s ++ $":" ++ t) with (s ++ 58 :: t). rewrite flat_scheme_input by now apply scheme_spec. intros X.
  pose proof (scheme_scheme E (normalize_encoding E enc) b (lower s) (rclean t)) as Y. rewrite X in Y. exact Y.
Qed.

(* ---------- C38 - C40 ---------- *)
Lemma parsed_flat E s b enc : parsed E b -> snd (parse_url E s (BRec b) enc) = flat_parse E s (Some b) enc.
Proof. intros H. rewrite parse_url_rec. apply parse_new_flat. now apply (parsed_base_ok E) in H. Qed.
Lemma empty_reference E b enc l : parsed E b -> path b = PList l -> scheme b <> $"file" ->
  snd (parse_url E [] (BRec b) enc) = Ok (set_fragment None b).
Proof. intros H Q S. rewrite parsed_flat by auto. apply (empty_ref E b); [unfold has_opaque_path; now rewrite Q|exact S]. Qed.
Lemma empty_reference_file E b enc l : parsed E b -> path b = PList l -> scheme b = $"file" ->
  snd (parse_url E [] (BRec b) enc) = Ok (set_path (PList (l ++ [[]])) (set_fragment None b)).
Proof. intros H Q S. rewrite parsed_flat by auto. apply (empty_ref_file (hostval E)); auto. now apply parsed_wf. Qed.
Lemma rstrip_std s : rstrip_by is_c0_space s = std_rstrip s.
Proof.
  induction s as [|c s IH] ; [reflexivity|]. cbn [std_rstrip]. rewrite <- IH. change std_c0_space with is_c0_space.
  assert (D : forall f (a b : str), drop_while f (a ++ b) = match drop_while f a with [] => drop_while f b | r => r ++ b end).
  { clear. intros f a b. induction a as [|x a IH]; [reflexivity|]. cbn [app drop_while]. destruct (f x); [exact IH|reflexivity]. }
  unfold rstrip_by. cbn [rev]. rewrite D. destruct (drop_while is_c0_space (rev s)) as [|x r] eqn:Q.
  - cbn [drop_while rev]. destruct (is_c0_space c); reflexivity.
  - rewrite rev_app_distr. cbn [rev app]. destruct (rev r ++ [x]) eqn:Z; [now destruct (rev r)|reflexivity].
Qed.
(** the end of the input as the parser sees it *)
Definition std_seen (t : str) : str := std_strip_tabs (std_rstrip t).
Lemma rclean_eq t : rclean t = std_seen t.
Proof. unfold rclean, std_seen. rewrite rstrip_std. reflexivity. Qed.
Lemma hash_reference E b enc f : is_pystr f -> parsed E b ->
  snd (parse_url E ($"#" ++ f) (BRec b) enc) = Ok (set_fragment (Some (std_percent_encode fragment_set false (std_seen f))) b).
Proof.
  intros Hf H. change ($"#" ++ f) with (35 :: f). rewrite parsed_flat, flat_ref by (auto; reflexivity). rewrite (hash_ref (hostval E)) by now apply parsed_wf.
  unfold enc_fragment. rewrite (encode_conforms _ _ _ _ agree_fragment) by now apply rclean_pystr. now rewrite rclean_eq.
Qed.
(** the percent-encoded query of a record with scheme [sch] *)
Definition std_query_set (sch : str) (c : N) : bool := SpecText.query_set c || ((c =? 39) && existsb (str_eqb sch) (map fst std_special_schemes)).
Lemma special_existsb sch : existsb (str_eqb sch) (map fst std_special_schemes) = special_scheme sch.
Proof. reflexivity. Qed.
Lemma encode_set_ext (f g : N -> bool) plus s : (forall c, f c = g c) -> std_percent_encode f plus s = std_percent_encode g plus s.
Proof. intros H. unfold std_percent_encode. apply flat_map_ext. intros c. unfold std_percent_encode1. now rewrite H. Qed.
Lemma query_utf8 sch q : is_pystr q -> utf8_percent_encode q (if special_scheme sch then SAFE_SPECIAL_QUERY else SAFE_QUERY) false = std_percent_encode (std_query_set sch) false q.
Proof.
  intros Hq. destruct (special_scheme sch) eqn:S.
  - rewrite (encode_conforms _ _ _ _ agree_special_query) by auto. apply encode_set_ext. intros c. unfold special_query_set, std_query_set. now rewrite special_existsb, S, andb_true_r.
  - rewrite (encode_conforms _ _ _ _ agree_query) by auto. apply encode_set_ext. intros c. unfold std_query_set. now rewrite special_existsb, S, andb_false_r, orb_false_r.
Qed.
Lemma query_reference E b enc q : enc_ok E (normalize_encoding E enc) -> is_pystr q -> parsed E b -> has_opaque_path b = false -> ~ In 35 q ->
  exists x, snd (parse_url E ($"?" ++ q) (BRec b) enc) = Ok (set_fragment None (set_query (Some x) b)) /\
    (normalize_encoding E enc = $"utf-8" \/ ~ std_special (scheme b) \/ scheme b = $"ws" \/ scheme b = $"wss" ->
       x = std_percent_encode (std_query_set (scheme b)) false (std_seen q)) /\
    string_percent_encode (enc_of E (query_encoding b (normalize_encoding E enc))) (std_seen q)
      (if special_scheme (scheme b) then SAFE_SPECIAL_QUERY else SAFE_QUERY) false = Some x.
Proof.
  intros He Hq H O N. change ($"?" ++ q) with (63 :: q). rewrite parsed_flat, flat_ref by (auto; reflexivity). rewrite (query_ref (hostval E)); [|now apply parsed_wf|auto|].
  - destruct (enc_query_ok E (normalize_encoding E enc) b (rclean q) He (rclean_pystr q Hq)) as (x & X & _). exists x. rewrite X. rewrite <- rclean_eq.
    split; [reflexivity|]. split; [|exact X]. intros U. unfold enc_query, is_special in X.
    assert (Q : enc_of E (query_encoding b (normalize_encoding E enc)) = utf8_enc1).
    { assert (Y : query_encoding b (normalize_encoding E enc) = $"utf-8"); [|now rewrite Y].
      unfold query_encoding. destruct (str_eqb (normalize_encoding E enc) $"utf-8") eqn:Z; [now apply str_eqb_eq in Z|]. cbn [negb andb].
      destruct U as [U|[U|U]]; [rewrite U in Z; discriminate Z| |].
      - unfold is_not_special. destruct (special_scheme (scheme b)) eqn:S; [exfalso; apply U; now apply special_spec|reflexivity].
      - destruct U as [-> | ->]; cbn [str_in existsb]; rewrite ?orb_true_r; reflexivity. }
    rewrite Q in X. rewrite <- query_utf8 by now apply rclean_pystr. unfold utf8_percent_encode. now rewrite X.
  - apply mem_not_In. intros I. apply N. now apply rclean_in.
Qed.

(* ---------- C44 ---------- *)
Definition differ_in_query (a b : res urlrec) : Prop :=
  match a, b with
  | Ok u, Ok v => u = set_query (query u) v /\ (~ std_special (scheme v) \/ scheme v = $"ws" \/ scheme v = $"wss" -> u = v)
  | Err e, Err e' => e = e'
  | _, _ => False
  end.
Lemma qres_differ a b : qres a b -> differ_in_query a b.
Proof.
  destruct a as [u|e], b as [v|e']; cbn [qres differ_in_query]; auto. intros (q & Q & H). split; [rewrite Q; reflexivity|].
  intros K. apply H. destruct K as [K|K]; [left|now right]. destruct (special_scheme (scheme v)) eqn:S; [|reflexivity]. exfalso. apply K. now apply special_spec.
Qed.
Lemma encoding_query E s base e1 e2 : enc_ok E (normalize_encoding E e1) -> enc_ok E (normalize_encoding E e2) -> is_pystr s -> base_parsed E base ->
  differ_in_query (snd (parse_url E s base e1)) (snd (parse_url E s base e2)).
Proof.
  intros H1 H2 Hs Hb. apply qres_differ. destruct base as [|t|b].
  - rewrite !parse_url_none. apply parse_new_R; auto; exact I.
  - rewrite !parse_url_str. pose proof (parse_new_R E t None None e1 e2 H1 H2 Hb I I) as R.
    destruct (snd (parse_new E t None e1)) as [u|e] eqn:Q1, (snd (parse_new E t None e2)) as [v|e'] eqn:Q2; try destruct R as []; [|reflexivity].
    apply parse_new_R; auto; [now exists x|]. eapply wf_base_ok. eapply (parse_new_wf E t None e2 v); eauto. exact I.
  - rewrite !parse_url_rec. apply parse_new_R; auto; [|now apply (parsed_base_ok E) in Hb]. exists (query b). split; [destruct b; reflexivity|reflexivity].
Qed.

(* ---------- C45 ---------- *)
Lemma parse_url_flat E base enc : enc_ok E (normalize_encoding E enc) -> base_parsed E base ->
  (exists b, base_ok b /\ forall s, snd (parse_url E s base enc) = flat_parse E s b enc) \/ (exists e, forall s, snd (parse_url E s base enc) = Err e).
Proof.
  intros He Hb. destruct (parse_url_of E base enc) as [(b & B & Q)|Q]; [left|now right].
  pose proof (base_of_ok E enc base b He (base_parsed_arg E base Hb) B) as O. exists b. split; [exact O|]. intros s. now rewrite Q, parse_new_flat.
Qed.
Lemma backslash_special E s t base enc : enc_ok E (normalize_encoding E enc) -> base_parsed E base -> std_scheme s = true -> std_special (std_lower s) ->
  snd (parse_url E (s ++ $":" ++ slashed t) base enc) = snd (parse_url E (s ++ $":" ++ t) base enc).
Proof.
  intros He Hb H1 H2. destruct (parse_url_flat E base enc He Hb) as [(b & O & Q)|(e & Q)]; [|now rewrite !Q]. rewrite !Q.
  apply slash_parse; [now apply scheme_spec|]. now apply special_spec.
Qed.
(** visible characters that are not '/', '?', '#' *)
Definition std_ns_char (c : N) : Prop := c <> 47 /\ c <> 63 /\ c <> 35 /\ std_c0_space c = false.
Definition std_ends_head (r : str) : Prop := match r with [] => True | c :: _ => c = 47 \/ c = 63 \/ c = 35 end.
Lemma ns_chars a : Forall std_ns_char a -> Forall (fun c => c <> 47 /\ c <> 63 /\ c <> 35) a /\ vis a.
Proof. intros H. split; (eapply Forall_impl; [|exact H]); unfold std_ns_char; cbv beta; [tauto|]. intros c (_ & _ & _ & X). exact X. Qed.
Lemma not_special s : ~ std_special s -> special_scheme s = false.
Proof. intros H. destruct (special_scheme s) eqn:Q; [|reflexivity]. apply special_spec in Q. tauto. Qed.
Lemma split_first_std x s : split_first x s = std_upto x s.
Proof.
  unfold split_first. induction s as [|c s IH]; [reflexivity|]. cbn [span std_upto]. destruct (c =? x); [reflexivity|]. cbn [negb].
  destruct (span (fun c => negb (c =? x)) s) as [a t]. rewrite <- IH. reflexivity.
Qed.
Lemma upto_pystr x s : is_pystr s -> is_pystr (fst (std_upto x s)) /\ is_pystr (snd (std_upto x s)).
Proof.
  unfold is_pystr. induction 1 as [|c s Hc Hs IH]; [split; constructor|]. cbn [std_upto]. destruct (c =? x); [split; [constructor|exact Hs]|]. destruct (std_upto x s). cbn [fst snd] in *. split; [constructor|]; tauto.
Qed.
Lemma backslash_userinfo E s ui hp r base enc u : enc_ok E (normalize_encoding E enc) -> base_parsed E base -> std_scheme s = true -> ~ std_special (std_lower s) ->
  is_pystr ui -> Forall std_ns_char ui -> Forall std_ns_char hp -> ~ In 64 hp -> std_ends_head r ->
  snd (parse_url E (s ++ $"://" ++ ui ++ $"@" ++ hp ++ r) base enc) = Ok u ->
  username u = std_percent_encode userinfo_set false (fst (std_upto 58 ui)) /\ password u = std_percent_encode userinfo_set false (snd (std_upto 58 ui)).
Proof.
  intros He Hb H1 H2 Hp A B M R. destruct (parse_url_flat E base enc He Hb) as [(b & O & Q)|(e & Q)]; rewrite !Q; [|discriminate]. intros X.
  apply ns_chars in A as [A1 A2]. apply ns_chars in B as [B1 B2]. apply (ns_userinfo E s ui hp r b enc u) in X; auto; try (now apply scheme_spec); try (now apply not_special).
  - rewrite split_first_std in X. destruct (upto_pystr 58 ui Hp) as [P1 P2]. unfold enc_userinfo in X. rewrite !(encode_conforms _ _ _ _ agree_userinfo) in X by auto. exact X.
  - now apply Forall_app.
  - now apply vis_no_tabs.
  - now apply mem_not_In.
Qed.
Lemma backslash_host E s a hp r base enc : enc_ok E (normalize_encoding E enc) -> base_parsed E base -> std_scheme s = true -> ~ std_special (std_lower s) ->
  a = [] \/ (exists ui, a = ui ++ $"@" /\ Forall std_ns_char ui) ->
  Forall std_ns_char hp -> ~ In 64 hp -> std_ends_head r -> In 92 hp ->
  exists e, snd (parse_url E (s ++ $"://" ++ a ++ hp ++ r) base enc) = Err e.
Proof.
  intros He Hb H1 H2 A B M R I. destruct (parse_url_flat E base enc He Hb) as [(b & O & Q)|(e & Q)]; [|exists e; apply Q]. rewrite Q.
  apply ns_chars in B as [B1 B2]. apply (ns_host_input E s a hp r); auto; try (now apply scheme_spec); try (now apply not_special).
  - destruct A as [->|(ui & -> & A)]; [now left|right]. exists ui. split; [reflexivity|]. apply vis_no_tabs. now apply ns_chars.
  - apply Forall_app. split; [|exact B1]. destruct A as [->|(ui & -> & A)]; [constructor|]. apply Forall_app. split; [now apply ns_chars|]. change ($"@") with [64]. constructor; [lia|constructor].
  - now apply mem_not_In.
Qed.
(** a character of one path segment: visible, not '/', '?', '#', and not a backslash for special schemes *)
Definition std_seg_char (sch : str) (c : N) : Prop := std_ns_char c /\ (std_special sch -> c <> 92).
Lemma std_seg_spec sch c : std_seg_char sch c -> seg_char (special_scheme sch) c.
Proof. intros ((A & B & C & D) & F). repeat split; auto. intros S. apply F. now apply special_spec. Qed.
Lemma segs_spec sch ps : Forall (Forall (std_seg_char sch)) ps -> Forall (Forall (seg_char (special_scheme sch))) ps.
Proof. apply Forall_impl. intros p. apply Forall_impl. intros c. apply std_seg_spec. Qed.
(** text of an authority: no slash or backslash, '?', '#', tab, newline *)
Definition std_auth_char (c : N) : Prop := c <> 47 /\ c <> 92 /\ c <> 63 /\ c <> 35 /\ std_tab_newline c = false.
Fixpoint std_join (ps : list str) : str := match ps with [] => [] | [p] => p | p :: t => p ++ 47 :: std_join t end.
Lemma std_join_eq ps : std_join ps = join [47] ps.
Proof. induction ps as [|p [|p' t] IH]; [reflexivity|reflexivity|]. change (p ++ 47 :: std_join (p' :: t) = p ++ [47] ++ join [47] (p' :: t)). now rewrite IH. Qed.
Definition std_qf_tail (r : str) : Prop := match r with [] => True | c :: _ => c = 63 \/ c = 35 end.
Lemma qf_tail_spec r : std_qf_tail r -> match r with [] => True | c :: _ => is_qf c = true end.
Proof. destruct r as [|c r]; [auto|]. cbn [std_qf_tail]. rewrite qf_eq. lia. Qed.
Lemma segments_kept E s auth ps r base enc u : enc_ok E (normalize_encoding E enc) -> base_parsed E base -> std_scheme s = true -> std_lower s <> $"file" ->
  Forall std_auth_char auth -> (std_special (std_lower s) -> auth <> []) -> ps <> [] -> Forall (Forall (std_seg_char (std_lower s))) ps -> std_qf_tail r ->
  Forall (fun p => is_pystr p /\ std_single_dot p = false /\ std_double_dot p = false) ps ->
  snd (parse_url E (s ++ $"://" ++ auth ++ $"/" ++ std_join ps ++ r) base enc) = Ok u ->
  path u = PList (map (std_percent_encode path_set false) ps).
Proof.
  intros He Hb H1 NF HA HN N HS R HP. rewrite std_join_eq. destruct (parse_url_flat E base enc He Hb) as [(b & O & Q)|(e & Q)]; rewrite !Q; [|discriminate]. intros X.
  apply plain_path in X; auto; [|now apply scheme_spec|intros S; apply HN; now apply special_spec|now apply segs_spec|now apply qf_tail_spec].
  rewrite X. f_equal. apply map_ext_in. intros p Hp. rewrite Forall_forall in HP. apply (encode_conforms _ _ _ _ agree_path). now apply HP.
Qed.

(* ---------- C73, C74 ---------- *)
Lemma drive_kept E enc b d l t u : parsed E b -> scheme b = $"file" -> path b = PList (d :: l) -> std_drive_letter d = true ->
  (exists t', t = 46 :: t' \/ t = 37 :: t') -> snd (parse_url E t (BRec b) enc) = Ok u ->
  (exists l', path u = PList (d :: l')) /\ uhost u = uhost b.
Proof.
  intros W S Q D (t' & T) H. rewrite parsed_flat in H by auto. pose proof (parsed_wf E b W) as W'.
  destruct T as [-> | ->]; [apply (file_dots (hostval E) E enc b d l 46 t' u)|apply (file_dots (hostval E) E enc b d l 37 t' u)]; auto.
Qed.
Definition std_excess (sch : str) (a : list str) : Prop :=
  (sch <> $"file" /\ net_depth 0 a = 0%nat) \/ Forall (fun p => std_double_dot p = true) a.
Lemma excess_dropped E s auth a rest base enc : enc_ok E (normalize_encoding E enc) -> base_parsed E base -> std_scheme s = true ->
  Forall std_auth_char auth -> (std_special (std_lower s) -> std_lower s <> $"file" -> auth <> []) ->
  Forall (Forall std_auth_char) a -> Forall (fun p => is_pystr p) a -> std_excess (std_lower s) a ->
  snd (parse_url E (s ++ $"://" ++ auth ++ $"/" ++ flat_map (fun p => p ++ [47]) a ++ rest) base enc) =
  snd (parse_url E (s ++ $"://" ++ auth ++ $"/" ++ rest) base enc).
Proof.
  intros He Hb H1 HA HN Ha HP X. destruct (parse_url_flat E base enc He Hb) as [(b & O & Q)|(e & Q)]; rewrite !Q; [|reflexivity].
  apply excess_input; auto; [now apply scheme_spec|]. intros S. apply HN. now apply special_spec.
Qed.
Lemma segments_from E s auth ps r base enc u : enc_ok E (normalize_encoding E enc) -> base_parsed E base -> std_scheme s = true -> std_lower s <> $"file" ->
  Forall std_auth_char auth -> (std_special (std_lower s) -> auth <> []) -> ps <> [] -> Forall (fun p => is_pystr p) ps -> Forall (Forall (std_seg_char (std_lower s))) ps -> std_qf_tail r ->
  snd (parse_url E (s ++ $"://" ++ auth ++ $"/" ++ std_join ps ++ r) base enc) = Ok u ->
  exists l, path u = PList l /\ forall x, In x l -> x = [] \/ exists p, In p ps /\ x = std_percent_encode path_set false p.
Proof.
  intros He Hb H1 NF HA HN N HP HS R. rewrite std_join_eq. destruct (parse_url_flat E base enc He Hb) as [(b & O & Q)|(e & Q)]; rewrite !Q; [|discriminate]. intros X.
  apply from_path in X; auto; [|now apply scheme_spec|intros S; apply HN; now apply special_spec|now apply segs_spec|now apply qf_tail_spec].
  destruct X as (l & L & X). exists l. split; [exact L|]. intros x Hx. destruct (X x Hx) as [->|(p & P & ->)]; [now left|right]. exists p. split; [exact P|].
  rewrite Forall_forall in HP. apply (encode_conforms _ _ _ _ agree_path). now apply HP.
Qed.

(* ---------- C27, C28 ---------- *)
Lemma parse_url_error E s base enc e : enc_ok E (normalize_encoding E enc) -> is_pystr s -> base_parsed E base ->
  snd (parse_url E s base enc) = Err e -> is_url_error e = true \/ (e = EValue /\ int_limit E <> None).
Proof. intros H1 H2 H3 H. exact (parse_url_err E s base enc H1 H2 (base_parsed_arg E base H3) e H). Qed.
Lemma can_parse_bool E s base : int_limit E = None -> is_pystr s -> base_parsed (with_validity E true) base -> exists b, can_parse E s base = Ok b.
Proof.
  intros L H1 H2. unfold can_parse. destruct (snd (parse_url (with_validity E true) s base UTF8)) as [u|e] eqn:Q; [now exists true|].
  apply parse_url_error in Q as [-> | [_ X]]; auto; [now exists false| |apply enc_utf8]. now destruct X.
Qed.
Lemma parse_url_loud E s base enc e :
  snd (parse_url E s base enc) = Err e -> is_url_error e = true -> fst (parse_url E s base enc) <> [].
Proof.
  intros H U. unfold parse_url in *. destruct base as [|t|b].
  - unfold wbind, wret in *. cbn [fst snd] in *. pose proof (parse_new_loud E s None enc e) as P. destruct (parse_new E s None enc) as [l r]. cbn [fst snd app] in *. subst. now apply P.
  - unfold wbind, wret in *. pose proof (parse_new_loud E t None enc e) as P. destruct (parse_new E t None enc) as [l [b|e']]; cbn [fst snd app] in *.
    + pose proof (parse_new_loud E s (Some b) enc e) as P'. destruct (parse_new E s (Some b) enc) as [l' r]. cbn [fst snd app] in *. subst. specialize (P' eq_refl U). destruct l'; [congruence|]. rewrite app_nil_r. now destruct l.
    + injection H as ->. apply P; auto.
  - unfold wbind, wret in *. cbn [fst snd] in *. pose proof (parse_new_loud E s (Some b) enc e) as P. destruct (parse_new E s (Some b) enc) as [l r]. cbn [fst snd app] in *. subst. now apply P.
Qed.
