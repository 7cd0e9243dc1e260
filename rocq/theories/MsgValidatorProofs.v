(** Proofs about MsgValidators.v *)
From Coq Require Import Ascii String.
From Coq Require Import NArith ZArith Bool Arith Lia ZifyBool ZifyN ZifyNat List.
From Verif Require Import PyStr PyInt Codec Env HostModel UrlRecord Parser Schemes Validators Repr Idna Message MsgHost MsgParser MsgValidators SpecText SpecHost.
From Verif Require Import Lemmas CodecProofs QuoteProofs IPv4Proofs IPv6Proofs FlatParser HostProofs WfProofs RoundTrip UrlProps ReprProofs IdnaProofs IntGrammar ValidatorProofs MsgProofs MsgHostProofs MsgParserProofs MsgCallProofs.
From Verif Require StandardProofs.
From Verif Require Import SpecPyInt SpecUrl SpecParser SpecReports SpecRepr SpecIdna SpecMessages SpecValidity.
Import ListNotations.
Open Scope N_scope.

Lemma kept_fresh v v' : kept (ms_start v) (vs_start v').
Proof. destruct v, v'; repeat split. Qed.
Lemma order_start P v : in_order P (ms_start v).
Proof. destruct v; (split; [constructor|]; split; [reflexivity|split; reflexivity]). Qed.

Lemma log_kept P N en v st vs : (forall bits, ~ P VIPv4OutOfRangeRaised bits) -> tells P (unquoted true N) en v -> kept st vs -> kept (ms_log en st) (vs_log v vs).
Proof.
  intros HP (T1 & T2) (K1 & K2 & K3 & K4). unfold ms_log. destruct (e_text en) as [t|] eqn:Q.
  - destruct T2 as (bits & m & T2 & _). assert (V : vs_log v vs = vs_prepend v vs) by (destruct v; try reflexivity; destruct (HP _ T2)). rewrite V.
    repeat split; cbn [vs_prepend ms_valid ms_types ms_descs ms_count vs_valid vs_types vs_descs vs_count map length]; congruence.
  - destruct T2 as (_ & ->). repeat split; cbn [vs_log vs_prepend_raising ms_valid ms_types ms_descs ms_count vs_valid vs_types vs_descs vs_count map length]; try congruence. rewrite T1, K2. reflexivity.
Qed.
Lemma apply_kept P N l l' : (forall bits, ~ P VIPv4OutOfRangeRaised bits) -> Forall2 (tells P (unquoted true N)) l l' -> forall st vs, kept st vs -> kept (ms_apply l st) (vs_apply l' vs).
Proof.
  intros HP. unfold ms_apply, vs_apply. induction 1 as [|en v l l' T F IH]; intros st vs K; [exact K|]. cbn [fold_left]. apply IH. eapply log_kept; eassumption.
Qed.
Lemma log_order P N en v st : ~ N -> tells P (unquoted true N) en v -> in_order P st -> in_order P (ms_log en st).
Proof.
  intros HN (T1 & T2) (K1 & K2 & K3). unfold ms_log. destruct (e_text en) as [t|]; [|destruct T2 as (T2 & _); contradiction].
  destruct T2 as (bits & m & T2 & T3 & T4). split; [|split]; cbn [ms_types ms_descs ms_count ms_valid length].
  - constructor; [|exact K1]. exists v, bits, m. auto.
  - now rewrite K2.
  - split; discriminate.
Qed.
Lemma apply_order P N l l' : ~ N -> Forall2 (tells P (unquoted true N)) l l' -> forall st, in_order P st -> in_order P (ms_apply l st).
Proof. intros HN. unfold ms_apply. induction 1 as [|en v l l' T F IH]; intros st K; [exact K|]. cbn [fold_left]. apply IH. eapply log_order; eassumption. Qed.
Lemma order_mono (P P' : verr -> list bit -> Prop) st : (forall v b, P v b -> P' v b) -> in_order P st -> in_order P' st.
Proof. intros H (K1 & K2). split; [|exact K2]. eapply F2_impl; [|exact K1]. cbv beta. intros ty d (v & bits & m & A & B & C). exists v, bits, m. auto. Qed.
Lemma says_mono (P P' : verr -> list bit -> Prop) a : (forall v b, P v b -> P' v b) -> says P a -> says P' a.
Proof. intros H (K1 & K2). split; [|exact K2]. eapply order_mono; eassumption. Qed.
Lemma apply_types l : forall st, ms_types (ms_apply l st) = rev (map e_type l) ++ ms_types st.
Proof.
  unfold ms_apply. induction l as [|en l IH]; intros st; [reflexivity|]. cbn [fold_left map rev]. rewrite IH, <- app_assoc. f_equal. unfold ms_log. now destruct (e_text en).
Qed.
Lemma order_count P st : in_order P st -> (ms_count st =? 0)%nat = match ms_types st with [] => true | _ => false end.
Proof. intros (_ & K & _). rewrite K. destruct (ms_types st); reflexivity. Qed.

Lemma clean_sim {A B} P N (R : A -> B -> Prop) (w : MW A) (p : W B) caught st vs :
  (forall bits, ~ P VIPv4OutOfRangeRaised bits) -> (forall e, caught e = true -> is_url_error e = true) -> (forall e t, snd w = MErr e (Some t) -> caught e = true) ->
  wsim P (unquoted true N) (fun _ => False) R w p -> kept st vs ->
  agrees (m_valid_if_clean w caught st) (valid_if_clean p caught vs) /\
  (~ N -> in_order P st -> ms_types st = [] -> says P (m_valid_if_clean w caught st)).
Proof.
  intros HP HC HU (H1 & H2) K. destruct w as [l r], p as [l' r']. cbn [fst snd] in *. unfold m_valid_if_clean, valid_if_clean. pose proof (apply_kept P N l l' HP H1 st vs K) as KK. destruct r as [a|e t], r' as [b|e']; cbn [same] in H2; try contradiction.
  - split; [split; [|exact KK]; cbn [fst untold]; destruct KK as (_ & _ & _ & ->); reflexivity|]. intros HN O T0. pose proof (apply_order P N l l' HN H1 st O) as OO. split; [exact OO|]. left. cbn [fst snd]. f_equal. eapply order_count; exact OO.
  - destruct H2 as (<- & H2). destruct H2 as [H2|(_ & x & bits & _ & H2 & _)]; [|contradiction]. split; [split; [|exact KK]; cbn [fst]; destruct (caught e); reflexivity|].
    intros HN O T0. pose proof (apply_order P N l l' HN H1 st O) as OO. split; [exact OO|]. cbn [fst snd]. destruct (caught e) eqn:C.
    + left. f_equal. rewrite apply_types. destruct t as [t|]; [|cbn [blames] in H2; rewrite (HC e C) in H2; discriminate H2].
      cbn [blames] in H2. destruct H2 as (_ & l0 & v & bits & m & -> & _). rewrite map_app, rev_app_distr. reflexivity.
    + right. exists e. destruct t as [t|]; [|reflexivity]. rewrite (HU e t eq_refl) in C. discriminate C.
Qed.
Lemma refuse_sim X (P : verr -> list bit -> Prop) v msg args bits st vs : good v msg = true -> args <> [] -> fill [] (body v msg) args = Some bits -> Forall (okbit (checking X)) bits -> P v bits -> v <> VIPv4OutOfRangeRaised -> kept st vs ->
  agrees (ms_refuse X msg args st) (Ok false, vs_prepend v vs) /\ (in_order P st -> says P (ms_refuse X msg args st)).
Proof.
  intros G A F O HP NV K. pose proof (ws_note (checking X) P (fun _ => False) (fun _ => False) v msg args bits G A F O HP) as (W1 & W2). unfold mw_note in W1, W2. unfold ms_refuse. destruct (noted (checking X) INFO msg args) as [l r]. cbn [fst snd wlog] in *.
  inversion W1 as [|en v' l1 l2 T F' E1 E2]; subst. inversion F'; subst. destruct r as [[]|e t]; [|contradiction]. destruct T as (T1 & T2). destruct (e_text en) as [t|] eqn:Q; [|contradiction].
  assert (L : ms_apply [en] st = mkms false (verr_name v :: ms_types st) (t :: ms_descs st) (S (ms_count st))) by (unfold ms_apply; cbn [fold_left]; unfold ms_log; rewrite Q, T1; reflexivity). rewrite L.
  destruct T2 as (b & m & T2 & T3 & T4). split.
  - split; [reflexivity|]. destruct K as (K1 & K2 & K3 & K4). repeat split; cbn [snd vs_prepend ms_valid ms_types ms_descs ms_count vs_valid vs_types vs_descs vs_count map length]; congruence.
  - intros (O1 & O2 & O3). split; [|left; reflexivity]. split; [|split]; cbn [snd ms_types ms_descs ms_count ms_valid length]; [|now rewrite O2|split; discriminate]. constructor; [|exact O1]. exists v, b, m. auto.
Qed.

Lemma bracketed h : starts_with $"[" h && ends_with_char h 93 = true -> exists a, h = 91 :: a ++ [93].
Proof.
  intros H. apply andb_true_iff in H as [H1 H2]. apply starts_with_iff in H1 as (t & ->). change ($"[" ++ t) with (91 :: t) in *. unfold ends_with_char in H2. cbn [rev] in H2. destruct (rev t) as [|x r] eqn:RT; [discriminate H2|]. cbn [app] in H2.
  apply (f_equal (@rev N)) in RT. rewrite rev_involutive in RT. cbn [rev] in RT. exists (rev r). rewrite RT. repeat f_equal. lia.
Qed.
Lemma bad_percent h q : find bad_percent_part (percent_parts h) = Some q ->
  exists a p b, firstn 3 q = 37 :: p /\ h = a ++ 37 :: p ++ b /\ std_two_hex (p ++ b) = false /\ ~ In 37 p /\ (length p = 2%nat \/ (length p < 2)%nat /\ (b = [] \/ exists b', b = 37 :: b')).
Proof.
  intros FQ. apply find_some in FQ as (IN & BP). unfold percent_parts in IN. apply in_map_iff in IN as (p & <- & IN). destruct (tl_split_field 37 h p IN) as (a & b & HE & NP & HB).
  exists a, (firstn 2 p), (skipn 2 p ++ b). split; [reflexivity|]. split; [rewrite app_assoc, firstn_skipn; exact HE|]. split; [|split].
  - rewrite app_assoc, firstn_skipn. unfold bad_percent_part in BP. destruct p as [|x [|y p]].
    + destruct HB as [->|(b' & ->)]; [reflexivity|]. cbn. destruct b'; reflexivity.
    + destruct HB as [->|(b' & ->)]; [reflexivity|]. cbn [app std_two_hex]. now rewrite andb_false_r.
    + cbn [length Nat.ltb Nat.leb skipn firstn existsb orb] in BP. rewrite !hex_mem in BP. cbn [app std_two_hex]. unfold std_hex_digit. destruct (std_hex x); [|reflexivity]. destruct (std_hex y); [discriminate BP|reflexivity].
  - intros K. apply NP. rewrite <- (firstn_skipn 2 p). apply in_or_app. now left.
  - destruct p as [|x [|y p]]; [right|right|now left]; cbn; (split; [lia|exact HB]).
Qed.

Section Checks.
Context (X : menv).
Local Notation E := (m_env X).
Local Notation code := (m_icu_code X).
Context (HL : limit_ok E).

Ltac ok := repeat (constructor; [first [exact I | (apply ok_str; assumption) | assumption]|]); try constructor.
Ltac refuse t := eapply refuse_sim; [vm_compute; reflexivity|discriminate| | |t|discriminate|]; [reflexivity|ok|].

(* IPv6 *)
Lemma v6_no_raised a bits : ~ v6_message a VIPv4OutOfRangeRaised bits.
Proof. intros H. inversion H. Qed.
Lemma v6_check_sim a : is_pystr a -> forall v v',
  agrees (m_is_valid_ipv6_address X a v) (is_valid_ipv6_address E a v') /\ says (v6_message a) (m_is_valid_ipv6_address X a v).
Proof.
  intros HA v v'. unfold m_is_valid_ipv6_address, is_valid_ipv6_address.
  pose proof (v6_sim (checking X) HL a (unquoted true False) (fun _ => False) HA) as S6. change (m_env (checking X)) with (with_validity E true) in S6.
  destruct (clean_sim (v6_message a) False eq (m_ipv6_parse (checking X) a) (ipv6_parse (with_validity E true) a) (fun e => match e with EIPv6 => true | _ => false end) (ms_start v) (vs_start v')) as (A & B).
  - apply v6_no_raised.
  - intros e. destruct e; try discriminate. reflexivity.
  - intros e t Q. destruct S6 as (_ & S6). rewrite Q in S6. destruct (snd (ipv6_parse (with_validity E true) a)) as [|e'] eqn:Q'; cbn [same] in S6; [contradiction|]. destruct S6 as (<- & [S6|(_ & _ & _ & _ & S6 & _)]); [|contradiction].
    cbn [blames] in S6. destruct S6 as (S6 & _). pose proof (ipv6_parse_total (with_validity E true) a) as T. rewrite Q' in T. destruct T as [->|(-> & _)]; [reflexivity|discriminate S6].
  - exact S6.
  - apply kept_fresh.
  - split; [exact A|]. apply B; [tauto|apply order_start|destruct v; reflexivity].
Qed.

(* domains *)
Lemma domain_no_raised d bits : ~ domain_check E code d VIPv4OutOfRangeRaised bits.
Proof. intros H. inversion H. Qed.
Lemma domain_ascii_sim d : is_pystr d -> wsim (domain_check E code d) (unquoted true False) (fun _ => False) (fun _ _ => True)
  (m_domain_to_ascii (checking X) true d) (domain_to_ascii (with_validity E true) true d).
Proof.
  intros DP. unfold m_domain_to_ascii, domain_to_ascii. cbv zeta. cbv iota. change (4 + 8 + 16 + 2) with 30. change CHECK_HYPHENS_ERRORS with 56.
  change (icu_to_ascii (m_env (checking X)) 30 d) with (icu_to_ascii E 30 d). change (icu_to_ascii (with_validity E true) 30 d) with (icu_to_ascii E 30 d). change (m_icu_code (checking X) 30 d) with (code 30 d).
  destruct (icu_to_ascii E 30 d) as [errors dest|errors] eqn:IC.
  2: { eapply ws_fail; [vm_compute; reflexivity|discriminate| | |apply kd_ascii_icu; exact IC| |reflexivity]; [reflexivity|ok|reflexivity]. }
  change (N.ldiff errors 56) with (strictly_counted errors). apply ws_if; intros CE.
  - assert (CN : strictly_counted errors <> 0) by lia. rewrite errors_closed, join_eq. eapply ws_fail; [vm_compute; reflexivity|discriminate| | |eapply kd_ascii; eassumption| |reflexivity]; [reflexivity|ok|reflexivity].
  - assert (CN : strictly_counted errors = 0) by lia. destruct dest as [|c t]; [|now apply ws_ret].
    eapply ws_fail; [vm_compute; reflexivity|discriminate| | |eapply kd_ascii_empty; eassumption| |reflexivity]; [reflexivity|ok|reflexivity].
Qed.
Lemma domain_unicode_sim d : is_pystr d -> wsim (domain_check E code d) (unquoted true False) (fun _ => False) (fun _ _ => True)
  (m_domain_to_unicode (checking X) true d) (domain_to_unicode (with_validity E true) true d).
Proof.
  intros DP. unfold m_domain_to_unicode, domain_to_unicode. cbv zeta. cbv iota. change (4 + 8 + 32 + 2) with 46. change (N.lor CHECK_HYPHENS_ERRORS VERIFY_DNS_LENGTH_ERRORS) with 63.
  change (icu_to_unicode (m_env (checking X)) 46 d) with (icu_to_unicode E 46 d). change (icu_to_unicode (with_validity E true) 46 d) with (icu_to_unicode E 46 d). change (m_icu_code (checking X) 46 d) with (code 46 d).
  destruct (icu_to_unicode E 46 d) as [errors dest|errors] eqn:IC.
  2: { eapply ws_fail; [vm_compute; reflexivity|discriminate| | |apply kd_unicode_icu; exact IC| |reflexivity]; [reflexivity|ok|reflexivity]. }
  change (N.ldiff errors 63) with (counted errors). eapply ws_bind with (Q := fun _ _ => True); [|intros _ _ _; now apply ws_ret]. apply ws_if; intros CE; [|now apply ws_ret].
  assert (CN : counted errors <> 0) by lia. rewrite errors_closed, join_eq. eapply ws_mono; [|eapply ws_note; [vm_compute; reflexivity|discriminate| | |eapply kd_unicode; eassumption]]; [auto|reflexivity|ok].
Qed.
Lemma domain_check_sim d : is_pystr d -> forall v v',
  agrees (m_is_valid_domain X d v) (is_valid_domain E d v') /\ says (domain_check E code d) (m_is_valid_domain X d v).
Proof.
  intros HD v v'. unfold m_is_valid_domain, is_valid_domain. cbv zeta.
  destruct (clean_sim (domain_check E code d) False (fun _ _ => True) (m_domain_to_ascii (checking X) true d >w m_domain_to_unicode (checking X) true d)
     (domain_to_ascii (with_validity E true) true d ~;; domain_to_unicode (with_validity E true) true d) is_url_error (ms_start v) (vs_start v')) as (A & B); [apply domain_no_raised|auto| | |apply kept_fresh|].
  - intros e t Q. assert (SB : wsim (domain_check E code d) (unquoted true False) (fun _ => False) (fun _ _ => True) (m_domain_to_ascii (checking X) true d >w m_domain_to_unicode (checking X) true d)
     (domain_to_ascii (with_validity E true) true d ~;; domain_to_unicode (with_validity E true) true d)).
    { eapply ws_bind; [now apply domain_ascii_sim|]. intros _ _ _. now apply domain_unicode_sim. }
    destruct SB as (_ & SB). rewrite Q in SB. match type of SB with same _ _ _ _ _ ?r => destruct r end; cbn [same] in SB; [contradiction|]. destruct SB as (_ & [SB|(_ & _ & _ & _ & [] & _)]). apply SB.
  - eapply ws_bind; [now apply domain_ascii_sim|]. intros _ _ _. now apply domain_unicode_sim.
  - split; [exact A|]. apply B; [tauto|apply order_start|destruct v; reflexivity].
Qed.

(* IPv4 *)
Lemma v4_decimal p : snd (parse_ipv4_number E p) = false -> e_int E p 10 = Some (fst (parse_ipv4_number E p)).
Proof.
  unfold parse_ipv4_number. destruct p as [|z [|x t]]; [discriminate| |].
  - cbv iota beta zeta. destruct (e_int E [z] 10); [reflexivity|discriminate].
  - destruct (z =? 48); [destruct ((x =? 120) || (x =? 88)); cbv iota beta zeta|cbv iota beta zeta; destruct (e_int E (z :: x :: t) 10); [reflexivity|discriminate]].
    + destruct t; [discriminate|]. destruct (e_int E (n :: t) 16); discriminate.
    + destruct (e_int E (x :: t) 8); discriminate.
Qed.
Lemma v4_parts_sim a parts : is_pystr a -> (forall p, In p parts -> In p (std_strict_split 46 a []) /\ is_pystr p) -> forall st vs, kept st vs ->
  match ipv4_parts_check E parts with
  | None => m_ipv4_parts_check X a parts = None
  | Some e => exists msg args, m_ipv4_parts_check X a parts = Some (msg, args) /\
      agrees (ms_refuse X msg args st) (Ok false, vs_prepend e vs) /\ (in_order (v4_check E a) st -> says (v4_check E a) (ms_refuse X msg args st))
  end.
Proof.
  intros HA HP st vs K. induction parts as [|p t IH]; [reflexivity|]. cbn [ipv4_parts_check m_ipv4_parts_check]. cbv zeta. destruct (HP p (or_introl eq_refl)) as (IN & PS).
  specialize (IH (fun q Hq => HP q (or_intror Hq))).
  assert (PX : is_pystr p /\ is_pystr a) by auto.
  destruct (fst (parse_ipv4_number E p) <? 0)%Z eqn:NG.
  - assert (NN : forall n, ~ read_number E p n) by (intros n R; apply (proj1 (number_exact E p n)) in R; lia).
    eexists _, _. split; [reflexivity|]. refuse ltac:(eapply k4_text; eassumption). exact K.
  - assert (NP : read_number E p (Z.to_N (fst (parse_ipv4_number E p)))) by (apply (proj2 (number_exact E p _)); lia).
    destruct (snd (parse_ipv4_number E p)) eqn:ND.
    + destruct (v4_nondecimal X p) as (r & -> & R); [lia|exact ND|]. eexists _, _. split; [reflexivity|]. refuse ltac:(eapply k4_radix; eassumption). exact K.
    + rewrite (v4_decimal p ND). destruct ((0 <=? fst (parse_ipv4_number E p)) && (fst (parse_ipv4_number E p) <=? 255))%Z eqn:RG; [exact IH|].
      assert (RR : 255 < Z.to_N (fst (parse_ipv4_number E p))) by lia.
      eexists _, _. split; [reflexivity|]. refuse ltac:(eapply k4_range; eassumption). exact K.
Qed.
Lemma v4_check_sim a : is_pystr a -> forall v v', match v, v' with Some st, Some vs => True | None, None => True | _, _ => False end ->
  untold (fst (m_is_valid_ipv4_address X a v)) = Ok (fst (is_valid_ipv4_address E a v')) /\
  match snd (m_is_valid_ipv4_address X a v), snd (is_valid_ipv4_address E a v') with
  | Some st, Some vs => v <> None /\ kept st vs /\ says (v4_check E a) (fst (m_is_valid_ipv4_address X a v), st)
  | None, None => v = None
  | _, _ => False
  end.
Proof.
  intros HA v v' HV.
  assert (G : forall st vs, kept st vs ->
    match ipv4_check E a with
    | None => m_ipv4_check X a = None
    | Some e => exists msg args, m_ipv4_check X a = Some (msg, args) /\
        agrees (ms_refuse X msg args st) (Ok false, vs_prepend e vs) /\ (in_order (v4_check E a) st -> says (v4_check E a) (ms_refuse X msg args st))
    end).
  { intros st vs K. unfold m_ipv4_check, ipv4_check. cbv zeta. rewrite <- std_split_eq. destruct (length (last (std_strict_split 46 a []) []) =? 0)%nat eqn:L0.
    { assert (C : a = [] \/ (exists b, a = b ++ [46])).
      { destruct (list_eq_dec N.eq_dec a []) as [->|NA]; [now left|right]. apply split_last_empty; [|exact NA]. rewrite <- std_split_eq. apply Nat.eqb_eq, length_zero_iff_nil in L0. exact L0. }
      eexists _, _. split; [reflexivity|]. refuse ltac:(apply k4_end; exact C). exact K. }
    destruct (4 <? length (std_strict_split 46 a []))%nat eqn:L1.
    { eexists _, _. split; [reflexivity|]. refuse ltac:(apply k4_many; lia). exact K. }
    destruct (length (std_strict_split 46 a []) <? 4)%nat eqn:L2.
    { eexists _, _. split; [reflexivity|]. refuse ltac:(apply k4_few; lia). exact K. }
    apply v4_parts_sim; [exact HA| |exact K]. intros p Hp. split; [exact Hp|]. rewrite std_split_eq in Hp. pose proof (pystr_split 46 a HA) as F. rewrite Forall_forall in F. now apply F. }
  unfold m_is_valid_ipv4_address, is_valid_ipv4_address. cbv zeta. destruct v as [st|], v' as [vs|]; try contradiction.
  - assert (KR : kept (ms_reset st) (vs_reset vs)) by (repeat split).
    assert (O : in_order (v4_check E a) (ms_reset st)) by (split; [constructor|]; split; [reflexivity|split; reflexivity]).
    specialize (G _ _ KR). destruct (ipv4_check E a) as [e|].
    + destruct G as (msg & args & -> & (G1 & G2) & G3). specialize (G3 O). destruct (ms_refuse X msg args (ms_reset st)) as [r s]. cbn [fst snd] in *. split; [exact G1|]. split; [discriminate|]. split; [exact G2|exact G3].
    + rewrite G. cbn [fst snd]. split; [reflexivity|]. split; [discriminate|]. split; [exact KR|]. split; [exact O|]. now left.
  - specialize (G ms_fresh vs_fresh ltac:(repeat split)). destruct (ipv4_check E a) as [e|].
    + destruct G as (msg & args & -> & _). split; reflexivity.
    + rewrite G. split; reflexivity.
Qed.

(* opaque hosts *)
Lemma opaque_check_sim h : is_pystr h -> forall v v',
  agrees (m_is_valid_opaque_host X h v) (is_valid_opaque_host E h v') /\ says (opaque_check h) (m_is_valid_opaque_host X h v).
Proof.
  intros HH v v'. unfold m_is_valid_opaque_host, is_valid_opaque_host. cbv zeta. pose proof (kept_fresh v v') as K. pose proof (order_start (opaque_check h) v) as O.
  destruct h as [|c0 t] eqn:Hh.
  { unfold ms_refuse, noted. change (format_msg (checking X) $"opaque host string is empty" []) with (Ok $"opaque host string is empty"). change (error_type $"opaque host string is empty") with (verr_name VUndefined).
    unfold ms_apply. cbn [fold_left]. unfold ms_log. cbn [e_text e_type]. destruct O as (O1 & O2 & O3), K as (K1 & K2 & K3 & K4). split; [split; [reflexivity|]; repeat split; cbn [snd vs_prepend ms_valid ms_types ms_descs ms_count vs_valid vs_types vs_descs vs_count map length]; congruence|].
    split; [|left; reflexivity]. split; [|split; [cbn; now rewrite O2|split; discriminate]]. constructor; [|exact O1].
    exists VUndefined, [Txt $"opaque host string is empty"], $"opaque host string is empty". split; [reflexivity|]. split; [now apply ko_empty|]. split; [|reflexivity]. change $"opaque host string is empty" with ($"opaque host string is empty" ++ []) at 2. constructor. constructor. }
  rewrite <- Hh in *. destruct (starts_with $"[" h && ends_with_char h 93) eqn:BR.
  { apply bracketed in BR as (a & BR). rewrite BR. cbn [tl]. rewrite removelast_last.
    destruct (v6_check_sim a) with (v := Some (ms_start v)) (v' := Some (vs_start v')) as (A & B); [rewrite BR in HH; inversion HH as [|? ? _ Q]; subst; now apply pystr_app in Q as [Q _]|]. split; [exact A|].
    eapply says_mono; [|exact B]. intros w b Q. eapply ko_v6; [reflexivity|exact Q]. }
  unfold is_url_units. destruct (is_url_code_points $"%" FORBIDDEN_HOST_CODE_POINT h) as [c|] eqn:CP.
  - apply cps_some in CP as (IN & CP). rewrite url_cp_eq in CP. change (mem c $"%") with ((c =? 37) || false) in CP. rewrite orb_false_r in CP.
    destruct (mem c FORBIDDEN_HOST_CODE_POINT) eqn:FB.
    + rewrite forbidden_host_eq in FB. destruct (refuse_sim X (opaque_check h) VHostInvalidCP $"host-invalid-code-point: opaque host (in a URL that is not special) contains a forbidden host code point: %r" [PStr h]
        [Txt $"opaque host (in a URL that is not special) contains a forbidden host code point: "; Lit (PStr h)] (ms_start v) (vs_start v')) as (A & B); [vm_compute; reflexivity|discriminate|reflexivity|ok|eapply ko_forbidden; eassumption|discriminate|exact K|]. split; [exact A|now apply B].
    + cbn [negb andb] in CP. apply orb_false_iff in CP as [C37 CU].
      assert (G : (length [c] =? 1)%nat && negb (str_eqb [c] $"%") = true).
      { cbn [length Nat.eqb andb]. destruct (str_eqb [c] $"%") eqn:Q; [|reflexivity]. apply str_eqb_eq in Q. injection Q as ->. discriminate C37. }
      rewrite G. cbn [hd]. assert (NC : c <> 37) by lia. assert (PC : is_pystr [c]) by (constructor; [|constructor]; unfold is_pystr in HH; rewrite Forall_forall in HH; now apply HH).
      unfold shown_char. rewrite utf8_round_trip by exact PC.
      destruct (refuse_sim X (opaque_check h) VInvalidURLUnit $"invalid-URL-unit: code point is found that is not a URL unit: U+%04X (%s) in %r" [PInt c; PStr (scalar_value_string [c]); PStr h]
        [Txt $"code point is found that is not a URL unit: U+"; Hex4 c; Txt $" ("; Txt (scalar_value_string [c]); Txt $") in "; Lit (PStr h)] (ms_start v) (vs_start v')) as (A & B); [vm_compute; reflexivity|discriminate|reflexivity|ok|eapply ko_unit; eassumption|discriminate|exact K|].
      split; [exact A|now apply B].
  - destruct (find bad_percent_part (percent_parts h)) as [q|] eqn:FQ; [|split; [split; [reflexivity|exact K]|split; [exact O|left; destruct v; reflexivity]]].
    destruct (bad_percent h q FQ) as (a & p & b & -> & E1 & E2 & E3 & E4).
    assert (PP : is_pystr (37 :: p)).
    { rewrite E1 in HH. apply pystr_app in HH as [_ HH']. change (37 :: p ++ b) with ((37 :: p) ++ b) in HH'. now apply pystr_app in HH' as [HH' _]. }
    destruct (refuse_sim X (opaque_check h) VInvalidURLUnit $"invalid-URL-unit: incorrect percent encoding is found: %r in %r" [PStr (37 :: p); PStr h]
        [Txt $"incorrect percent encoding is found: "; Lit (PStr (37 :: p)); Txt $" in "; Lit (PStr h)] (ms_start v) (vs_start v')) as (A & B); [vm_compute; reflexivity|discriminate|reflexivity|ok|eapply ko_percent; eassumption|discriminate|exact K|].
    destruct p as [|x [|y p]]; (split; [exact A|now apply B]).
Qed.

(* hosts *)
Lemma host_check_sim h : is_pystr h -> forall v v',
  agrees (m_host_is_valid X h v) (host_is_valid E h v') /\ says (host_check E code h) (m_host_is_valid X h v).
Proof.
  intros HH v v'. unfold m_host_is_valid, host_is_valid. cbv zeta. pose proof (kept_fresh v v') as K.
  destruct (starts_with $"[" h && ends_with_char h 93) eqn:BR.
  { apply bracketed in BR as (a & BR). rewrite BR. cbn [tl]. rewrite removelast_last.
    destruct (v6_check_sim a) with (v := Some (ms_start v)) (v' := Some (vs_start v')) as (A & B); [rewrite BR in HH; inversion HH as [|? ? _ Q]; subst; now apply pystr_app in Q as [Q _]|]. split; [exact A|].
    eapply says_mono; [|exact B]. intros w b Q. eapply kh_v6; [reflexivity|exact Q]. }
  destruct (is_ends_in_a_number E h).
  - destruct (v4_check_sim h HH (Some (ms_start v)) (Some (vs_start v')) Logic.I) as (A & B). destruct (m_is_valid_ipv4_address X h (Some (ms_start v))) as [r [s|]], (is_valid_ipv4_address E h (Some (vs_start v'))) as [r' [s'|]]; cbn [fst snd] in *; try contradiction; [|discriminate B].
    destruct B as (_ & B1 & B2). split; [split; [exact A|exact B1]|]. eapply says_mono; [|exact B2]. apply kh_v4.
  - destruct (domain_check_sim h HH (Some (ms_start v)) (Some (vs_start v'))) as (A & B). split; [exact A|]. eapply says_mono; [|exact B]. apply kh_domain.
Qed.
End Checks.

Lemma trailing_dot E h tys ds : h <> [] -> Forall2 (fun ty d => exists v bits m, ty = verr_name v /\ v4_check E h v bits /\ spells bits m /\ d = headed v m) tys ds -> In $"IPv4-empty-part" tys -> exists b, h = b ++ [46].
Proof.
  intros HN. induction 1 as [|ty d tys ds (v & bits & m & T & C & _) F IH]; [contradiction|]. intros [J|J]; [|exact (IH J)].
  destruct C as [[C|C]| | | | |]; [contradiction|exact C|..]; exfalso; rewrite T in J; vm_compute in J; discriminate J.
Qed.

(* URLs *)
Lemma url_no_raised E code base enc s bits : ~ call_message E code base enc s VIPv4OutOfRangeRaised bits.
Proof.
  assert (G : forall b x, ~ input_message E code b x VIPv4OutOfRangeRaised bits).
  { intros b x K. remember VIPv4OutOfRangeRaised as v eqn:V. destruct K as [| |v bits K]; try discriminate V. destruct K as [| |p K|p K1 K2| | | | | | | | | | |h v bits K1 K2]; try discriminate V. subst v.
    remember VIPv4OutOfRangeRaised as v eqn:V. destruct K2 as [|a v bits K K2| | | | | | | |errors d v bits K K' K2]; try discriminate V; subst v; inversion K2. }
  intros H. remember VIPv4OutOfRangeRaised as v eqn:V. destruct H as [t v bits H K|b v bits H K]; subst v; exact (G _ _ K).
Qed.
Lemma scheme_check_sim X sch : ascii_str sch -> forall v v',
  agrees (m_is_valid_url_scheme X sch v) (Ok (fst (is_valid_url_scheme (m_env X) sch v')), snd (is_valid_url_scheme (m_env X) sch v')) /\
  says (scheme_check (lower sch)) (m_is_valid_url_scheme X sch v).
Proof.
  intros HA v v'. assert (HP : is_pystr (lower sch)) by (apply Forall_map; eapply Forall_impl; [|exact HA]; cbv beta; intros c Hc; unfold lower1; destruct (_ && _); lia).
  pose proof (scheme_valid (m_env X) sch v' HA) as SV. unfold m_is_valid_url_scheme, is_valid_url_scheme in *. cbv zeta in *. rewrite py_lower_ascii in * by exact HA.
  pose proof (kept_fresh v v') as K. destruct (negb (length (lower sch) =? 0)%nat && str_in (lower sch) REGISTERED_SCHEMES) eqn:Q; cbn [fst snd] in *.
  - split; [split; [reflexivity|exact K]|]. split; [apply order_start|left; destruct v; reflexivity].
  - assert (NI : ~ In (lower sch) REGISTERED_SCHEMES) by (intros I0; apply SV in I0; discriminate I0).
    destruct (refuse_sim X (scheme_check (lower sch)) VUndefined
      $"scheme is not registered in the IANA URI Schemes registry: %r" [PStr (lower sch)] [Txt $"scheme is not registered in the IANA URI Schemes registry: "; Lit (PStr (lower sch))] (ms_start v) (vs_start v')) as (A & B);
      [vm_compute; reflexivity|discriminate|reflexivity| |split; [reflexivity|]; split; [exact NI|reflexivity]|discriminate|exact K|].
    { constructor; [exact I|]. constructor; [now apply ok_str|constructor]. }
    split; [exact A|]. apply B. apply order_start.
Qed.
Section Url.
Context (X : menv).
Local Notation E1 := (with_validity (m_env X) true).
Context (HL : limit_ok E1) (HI : idna_ok E1).
Lemma url_check_sim s base enc : enc_ok E1 (normalize_encoding E1 enc) -> is_pystr s -> short s -> base_parsed E1 base -> (forall t, base = BStr t -> short t) -> forall v v',
  agrees (m_url_is_valid X s base enc v) (url_is_valid (m_env X) s base enc v') /\
  (~ call_unquotable E1 base s -> says (url_check E1 (m_icu_code X) base enc s) (m_url_is_valid X s base enc v)).
Proof.
  intros H1 H2 H3 H4 H5 v v'. pose proof (parse_url_sim (checking X) HL HI s base enc H1 H2 H3 H4 H5) as (S1 & S2).
  change (m_env (checking X)) with E1 in S1, S2. change (m_icu_code (checking X)) with (m_icu_code X) in S1, S2. change (has_validity E1) with true in S1, S2.
  assert (PS : forall u, snd (parse_url E1 s base enc) = Ok u -> parsed E1 u).
  { intros u H. destruct base as [|b|b]; cbn [base_parsed] in H4.
    - exact (parsed_none E1 s enc u H2 H1 H).
    - exact (parsed_str E1 s b enc u H2 H4 H1 H).
    - exact (parsed_rec E1 s b enc u H2 H4 H1 H). }
  assert (SC : forall u w b, snd (parse_url E1 s base enc) = Ok u -> w = VUndefined /\ ~ In (scheme u) REGISTERED_SCHEMES /\ b = [Txt $"scheme is not registered in the IANA URI Schemes registry: "; Lit (PStr (scheme u))] -> url_check E1 (m_icu_code X) base enc s w b).
  { intros u w b Q (-> & NI & ->). now apply ku_scheme. }
  unfold m_url_is_valid, url_is_valid. cbv zeta. destruct (m_parse_url (checking X) s base enc) as [l r], (parse_url E1 s base enc) as [l' r']. cbn [fst snd] in *.
  pose proof (apply_kept _ _ _ _ (url_no_raised E1 (m_icu_code X) base enc s) S1 _ _ (kept_fresh v v')) as K.
  assert (O : ~ call_unquotable E1 base s -> in_order (call_message E1 (m_icu_code X) base enc s) (ms_apply l (ms_start v))) by (intros NU; exact (apply_order _ _ _ _ NU S1 _ (order_start _ v))).
  destruct r as [u|e t], r' as [u'|e']; cbn [same] in S2; try contradiction.
  - subst u'. specialize (PS u eq_refl). apply parsed_wf in PS as ((SO & _) & _).
    assert (L : lower (scheme u) = scheme u /\ ascii_str (scheme u)).
    { split; [now apply scheme_lower|]. apply Forall_forall. intros c Hc. destruct (scheme u) as [|d t]; [destruct Hc|]. destruct SO as [O1 O2].
      destruct Hc as [<-|Hc]; [lia|]. rewrite forallb_forall in O2. specialize (O2 c Hc). unfold scheme_tail_char in O2. lia. }
    destruct L as [L A].
    destruct (scheme_check_sim X (scheme u) A (Some (ms_apply l (ms_start v))) (Some (vs_apply l' (vs_start v')))) as ((G1 & G2) & G3). rewrite L in G3.
    destruct (m_is_valid_url_scheme X (scheme u) (Some (ms_apply l (ms_start v)))) as [r st], (is_valid_url_scheme (m_env X) (scheme u) (Some (vs_apply l' (vs_start v')))) as [r' st']. cbn [fst snd] in *.
    destruct r as [b|e t]; [|discriminate G1]. split.
    + destruct K as (K1 & K2 & K3 & K4), G2 as (J1 & J2 & J3 & J4). split; [cbn [fst untold ms_iadd vs_iadd ms_count vs_count]; now rewrite K4, J4|].
      repeat split; cbn [snd ms_iadd vs_iadd ms_valid ms_types ms_descs ms_count vs_valid vs_types vs_descs vs_count]; [now rewrite K1, J1|now rewrite K2, J2, map_app|rewrite app_length; congruence|congruence].
    + intros NU. specialize (O NU). destruct G3 as (G3 & _). destruct O as (O1 & O2 & O3), G3 as (J1 & J2 & J3). cbn [snd] in *.
      assert (IO : in_order (url_check E1 (m_icu_code X) base enc s) (ms_iadd st (ms_apply l (ms_start v)))).
      { split; [|split]; cbn [ms_iadd ms_types ms_descs ms_count ms_valid].
        - apply Forall2_app.
          + eapply F2_impl; [|exact J1]. cbv beta. intros ty d (w & bits & m & B1 & B2 & B3). exists w, bits, m. split; [exact B1|]. split; [exact (SC u w bits eq_refl B2)|exact B3].
          + eapply F2_impl; [|exact O1]. cbv beta. intros ty d (w & bits & m & B1 & B2 & B3). exists w, bits, m. split; [exact B1|]. split; [now apply ku_parse|exact B3].
        - rewrite app_length. congruence.
        - rewrite andb_true_iff, J3, O3. split; [intros (-> & ->); reflexivity|apply app_eq_nil]. }
      split; [exact IO|]. left. cbn [fst snd]. f_equal. eapply order_count. exact IO.
  - destruct S2 as (<- & S2). split; [split; [cbn [fst]; destruct (is_url_error e); reflexivity|exact K]|]. intros NU. specialize (O NU).
    split; [eapply order_mono; [|exact O]; apply ku_parse|]. cbn [fst snd]. destruct S2 as [S2|(_ & x & bits & _ & [] & _)]. destruct t as [t|]; cbn [blames] in S2.
    + destruct S2 as (-> & l0 & w & bits & m & -> & _). left. f_equal. rewrite apply_types, map_app, rev_app_distr. reflexivity.
    + rewrite S2. right. now exists e.
Qed.
End Url.
