(** Lemmas on the messages of the URL parser: MsgParser.v does what Parser.v does, and its messages are
    those of SpecMessages.v (C109-C111). *)
From Coq Require Import Ascii String.
From Coq Require Import NArith ZArith Bool Arith Lia ZifyBool ZifyN ZifyNat List.
From Verif Require Import PyStr PyInt Codec Env HostModel UrlRecord Parser SearchParams UrlApi Repr Idna Message MsgHost MsgParser SpecText SpecHost.
From Verif Require Import Lemmas CodecProofs QuoteProofs PyIntProofs IPv4Proofs IPv6Proofs IPv6Conf HostProofs WfProofs ParamProofs ReprProofs IdnaProofs IntGrammar ValidatorProofs ObjProofs MsgProofs MsgHostProofs.
From Verif Require StandardProofs.
From Verif Require Import SpecPyInt SpecUrl SpecParser SpecReports SpecRepr SpecIdna SpecMessages.
Import ListNotations.
Open Scope N_scope.

Lemma skip_cons {A} i (s : list A) c t : skipn i s = c :: t -> skipn (i + 1) s = t /\ nth_error s i = Some c /\ (i + 1 <= length s)%nat.
Proof.
  revert s. induction i as [|i IH]; intros s H.
  - cbn [skipn] in H. subst s. cbn. repeat split. lia.
  - destruct s as [|x s]; [discriminate H|]. cbn [skipn] in H. destruct (IH s H) as (K1 & K2 & K3). cbn [Nat.add skipn nth_error length]. repeat split; auto. lia.
Qed.
Lemma cur_skip s c i : cur (skipn i s) = Some c -> nth_error s i = Some c /\ (i + 1 <= length s)%nat.
Proof. intros H. destruct (skipn i s) as [|x t] eqn:Q; [discriminate H|]. injection H as ->. destruct (skip_cons i s c t Q) as (_ & K1 & K2). now split. Qed.
Lemma slice_1 i s : cur (slice i (i + 1) s) = cur (skipn i s).
Proof. unfold slice. replace (i + 1 - i)%nat with 1%nat by lia. now destruct (skipn i s). Qed.
Lemma slice_k i k s : slice i (i + k) s = firstn k (skipn i s).
Proof. unfold slice. f_equal. lia. Qed.
Lemma nth_mid {A} (p : list A) c t : nth_error (p ++ c :: t) (length p) = Some c.
Proof. induction p; [reflexivity|exact IHp]. Qed.
Lemma bad_percent_eq t : bad_percent t = negb (std_two_hex t).
Proof.
  unfold bad_percent. destruct t as [|x [|y t]]; [reflexivity|reflexivity|]. cbn [length Nat.ltb Nat.leb firstn existsb orb std_two_hex]. unfold std_hex_digit. rewrite !hex_mem.
  destruct (std_hex x), (std_hex y); reflexivity.
Qed.

Lemma decimal_lt s : forall acc v, std_radix_value 10 s acc = Some v -> v < (acc + 1) * 10 ^ N.of_nat (length s).
Proof.
  induction s as [|c t IH]; intros acc v H; cbn [std_radix_value length] in *.
  - injection H as <-. change (N.of_nat 0) with 0. rewrite N.pow_0_r. lia.
  - destruct (std_radix_digit 10 c) as [d|] eqn:Q; [|discriminate]. apply IH in H. apply digit_not95 in Q as (_ & _ & Q); [|lia]. rewrite Nat2N.inj_succ, N.pow_succ_r'. nia.
Qed.
Lemma skip_skip {A} a b (l : list A) : skipn a (skipn b l) = skipn (b + a) l.
Proof. revert l. induction b as [|b IH]; intros l; [reflexivity|]. destruct l; [now rewrite !skipn_nil|]. apply IH. Qed.

Section Url.
Context (X : menv).
Local Notation E := (m_env X).
Local Notation code := (m_icu_code X).
Context (HL : limit_ok E).
Context (HI : forall d errors o, icu_to_ascii E 28 d = IcuOk errors o -> counted errors = 0 -> o <> [] -> is_pystr o).
Context (base : option urlrec) (HB : forall b, base = Some b -> is_pystr (href b)).
Context (src : str) (HS : is_pystr src) (HN : N.of_nat (length src) < 10 ^ 640).
Context (so : option pstate).
Local Notation ovr := (overridden so).
Definition silent (bits : list bit) : Prop := so = Some SCHEME_START /\ scheme_complaint src bits.
Local Notation sim := (msim (url_message E code base src) (unquoted (has_validity E) (unquotable E src)) silent).

Lemma ok_pos p : (p <= length src)%nat -> okbit X (Dec (N.of_nat p)).
Proof. intros H. apply small_prints; [exact HL|]. lia. Qed.
Lemma ok_lit s : is_pystr s -> okbit X (Lit (PStr s)).
Proof. now apply ok_str. Qed.
Lemma ok_sub a k : okbit X (Lit (PStr (firstn k (skipn a src)))).
Proof. apply ok_lit, pystr_firstn, pystr_skipn, HS. Qed.
Ltac ok := repeat (constructor; [first [exact I | (apply ok_lit; exact HS) | apply ok_sub | (apply ok_pos; lia) | assumption]|]); try constructor.
Ltac mnote t := eapply ms_note; [vm_compute; reflexivity|discriminate| | |t]; [reflexivity|ok].
Ltac mfail t := eapply ms_fail; [vm_compute; reflexivity|discriminate| | |t| |reflexivity]; [reflexivity|ok|reflexivity].

(* the result of one step *)
Definition inv (st : pstate) (i : nat) : Prop :=
  (st = SPECIAL_AUTHORITY_SLASHES \/ st = SPECIAL_RELATIVE_OR_AUTHORITY -> exists p, i = S p /\ nth_error src p = Some 58) /\ (st = SCHEME_START -> so = None \/ so = Some SCHEME_START).
Definition next (start : nat) (a b : pstate * nat) : Prop :=
  fst a = fst b /\ snd a = (start + snd b)%nat /\ (snd a <= length src)%nat /\ inv (fst a) (snd a).
Ltac done := apply ms_ret; split; [reflexivity|split; [cbn [fst snd]; lia|split; [cbn [fst snd]; lia|cbn [fst snd]; split; [try (intros [K|K]; discriminate K)|intros K; discriminate K]]]].

Lemma solidus_sim p : nth_error src p = Some 92 -> sim eq (note_solidus X src p) (logm VInvalidReverseSolidus).
Proof. intros H. assert (p < length src)%nat by (apply nth_error_Some; congruence). unfold note_solidus. mnote ltac:(apply mu_backslash; exact H). Qed.
Lemma unit_sim i c t : skipn i src = c :: t -> sim eq (m_check_unit X src (i + 1) c) (check_unit c t).
Proof.
  intros H. destruct (skip_cons i src c t H) as (K1 & K2 & K3). unfold m_check_unit, check_unit, from. rewrite K1. replace (i + 1 - 1)%nat with i by lia. replace (i + 1 + 2)%nat with (i + 3)%nat by lia.
  rewrite !slice_k. replace (slice (i + 1) (i + 3) src) with (firstn 2 t) by (replace (i + 3)%nat with (i + 1 + 2)%nat by lia; now rewrite slice_k, K1).
  apply ms_then.
  - apply ms_when. intros B. apply andb_true_iff in B as [B1 B2]. rewrite url_cp_eq in B1. cbn [mem existsb negb andb orb] in B1.
    assert (PC : is_pystr [c]) by (constructor; [|constructor]; unfold is_pystr in HS; rewrite Forall_forall in HS; apply HS; now apply nth_error_In in K2).
    unfold shown_char. rewrite utf8_round_trip by exact PC. assert (U1 : std_url_code_point c = false) by (destruct (std_url_code_point c); [discriminate B1|reflexivity]). assert (U2 : c <> 37) by lia.
    mnote ltac:(eapply mu_unit; eassumption).
  - apply ms_when. intros B. fold (bad_percent t) in B. apply andb_true_iff in B as [B1 B2]. rewrite bad_percent_eq in B2. assert (c = 37) by lia. subst c.
    assert (U1 : std_two_hex (skipn (S i) src) = false) by (replace (S i) with (i + 1)%nat by lia; rewrite K1; destruct (std_two_hex t); [discriminate B2|reflexivity]).
    mnote ltac:(eapply mu_percent; eassumption).
Qed.
Lemma hostp_sim b ns : occurs b src -> sim eq (mm_lift (m_host_parse X b ns)) (lift (host_parse E b ns)).
Proof.
  intros O. apply ms_lift. eapply wsim_weak; [| |apply (host_sim X HL HI b silent)].
  - intros v l K. eapply mu_host; eassumption.
  - intros v ((errors & d & l & K) & K'). split; [exists b, errors, d, l; tauto|exact K'].
  - eapply pystr_occurs; eassumption.
Qed.

(* where a loop is *)
Definition at_ (start i : nat) (pre buffer rest : str) : Prop :=
  src = pre ++ buffer ++ rest /\ (length pre + length buffer = start + i)%nat /\ (start <= length pre)%nat.
Lemma at_0 start : (start <= length src)%nat -> at_ start 0 (firstn start src) [] (skipn start src).
Proof. intros H. split; [cbn [app]; now rewrite firstn_skipn|]. rewrite firstn_length. cbn [length]. lia. Qed.
Lemma at_more start i pre b c t : at_ start i pre b (c :: t) -> at_ start (S i) pre (b ++ [c]) t.
Proof. intros (H1 & H2 & H3). split; [rewrite H1; now rewrite <- app_assoc|]. rewrite app_length. cbn [length]. lia. Qed.
Lemma at_clear start i pre b c t : at_ start i pre b (c :: t) -> at_ start (S i) ((pre ++ b) ++ [c]) [] t.
Proof. intros (H1 & H2 & H3). split; [rewrite H1; now rewrite <- !app_assoc|]. rewrite !app_length. cbn [length]. lia. Qed.
Lemma at_rest start i pre b r : at_ start i pre b r -> skipn (start + i) src = r /\ (start + i <= length src)%nat.
Proof.
  intros (H1 & H2 & H3). rewrite H1, app_assoc. rewrite <- H2, <- app_length. split; [|rewrite !app_length; lia]. rewrite skipn_app, skipn_all, Nat.sub_diag. reflexivity.
Qed.
Lemma at_occurs start i pre b r : at_ start i pre b r -> occurs b src.
Proof. intros (H & _). now exists pre, r. Qed.
Lemma at_buf start i pre b r : at_ start i pre b r -> skipn (length pre) src = b ++ r.
Proof. intros (H & _). rewrite H, skipn_app, skipn_all, Nat.sub_diag. reflexivity. Qed.

(* ---------- authority ---------- *)
Definition nextn (start : nat) (a b : nat) : Prop := a = (start + b)%nat /\ (a <= length src)%nat.
Lemma auth_end_sim start i pre buffer rest seen : at_ start i pre buffer rest -> (seen = true -> exists q, pre = q ++ [64]) ->
  (forall c t, rest = c :: t -> In c $"/?#\") ->
  sim (nextn start) (m_authority_end X src (start + i + 1) buffer seen) (authority_end i buffer seen).
Proof.
  intros AT SE RC. pose proof (at_rest _ _ _ _ _ AT) as (_ & LE). unfold m_authority_end, authority_end. apply ms_cond; intros B.
  - apply andb_true_iff in B as [-> B2]. destruct (SE eq_refl) as (q & ->). destruct buffer; [|discriminate B2]. destruct AT as (H1 & _ & _). cbn [app] in H1. rewrite <- app_assoc in H1. cbn [app] in H1.
    assert (K1 : nth_error src (length q) = Some 64) by (rewrite H1; apply nth_mid).
    assert (K2 : forall c, nth_error src (S (length q)) = Some c -> In c $"/?#\").
    { intros c Hc. rewrite H1 in Hc. destruct rest as [|x t].
      - exfalso. assert (LL : (S (length q) < length (q ++ [64%N]))%nat) by (apply nth_error_Some; congruence). rewrite app_length in LL. cbn [length] in LL. lia.
      - change (q ++ 64 :: x :: t) with (q ++ [64] ++ x :: t) in Hc. rewrite app_assoc in Hc. replace (S (length q)) with (length (q ++ [64])) in Hc by (rewrite app_length; cbn [length]; lia). rewrite nth_mid in Hc. injection Hc as <-. eapply RC. reflexivity. }
    mfail ltac:(eapply mu_at_end; eassumption).
  - apply ms_ret. destruct AT as (H1 & H2 & H3). unfold nextn. lia.
Qed.
Lemma auth_loop_sim start rest : forall i pre buffer seen pseen, at_ start i pre buffer rest -> (seen = true -> exists q, pre = q ++ [64]) ->
  sim (nextn start) (m_authority_loop X src rest (start + i) buffer seen pseen) (authority_loop rest i buffer seen pseen).
Proof.
  induction rest as [|c t IH]; intros i pre buffer seen pseen AT SE; cbn [m_authority_loop authority_loop].
  - eapply auth_end_sim; [exact AT|exact SE|]. intros c t K. discriminate K.
  - cbv zeta. replace (start + i + 1 - 1)%nat with (start + i)%nat by lia. pose proof (at_rest _ _ _ _ _ AT) as (SK & LE). destruct (skip_cons _ _ _ _ SK) as (_ & NT & LT). apply ms_cond; intros C.
    + assert (c = 64) by lia. subst c. apply ms_then; [mnote ltac:(apply mu_at; exact NT)|].
      destruct (if pseen then ([], if seen then $"%40" ++ buffer else buffer, true) else find_colon_split (if seen then $"%40" ++ buffer else buffer)) as [[user pass] sn].
      apply ms_then; [apply ms_when; intros _; apply ms_set|]. apply ms_then; [apply ms_when; intros _; apply ms_set|].
      replace (start + i + 1)%nat with (start + S i)%nat by lia. eapply IH; [apply at_clear; exact AT|]. intros _. eexists. reflexivity.
    + apply ms_use. intros u. apply ms_cond; intros D.
      * eapply auth_end_sim; [exact AT|exact SE|]. intros x t' K. injection K as <- <-. apply orb_true_iff in D as [D|D]; [apply mem_In in D; cbn in D |- *; tauto|]. apply andb_true_iff in D as [_ D]. assert (c = 92) by lia. subst c. cbn. tauto.
      * replace (start + i + 1)%nat with (start + S i)%nat by lia. eapply IH; [apply at_more; exact AT|exact SE].
Qed.
Lemma authority_sim start : (start <= length src)%nat -> sim (next start) (m_parse_authority X src start) (parse_authority (skipn start src)).
Proof.
  intros L. unfold m_parse_authority, parse_authority, from. eapply ms_bind.
  - pose proof (auth_loop_sim start (skipn start src) 0 _ [] false false (at_0 start L)) as K. rewrite Nat.add_0_r in K. apply K. discriminate.
  - intros a b (-> & LE). done.
Qed.

(* ---------- file ---------- *)
Lemma isc_cur i c : isc (cur (skipn i src)) c = true -> nth_error src i = Some c /\ (i + 1 <= length src)%nat.
Proof. intros H. destruct (cur (skipn i src)) as [x|] eqn:Q; [|discriminate H]. apply cur_skip in Q as (Q1 & Q2). cbn [isc] in H. assert (x = c) by lia. subst x. now split. Qed.
Lemma iscp_cur i l : iscp (cur (skipn i src)) l = true -> (i + 1 <= length src)%nat.
Proof. intros H. destruct (cur (skipn i src)) as [x|] eqn:Q; [|discriminate H]. now apply cur_skip in Q as (_ & Q2). Qed.
Lemma starts_drive i : starts_with_windows_drive_letter (skipn i src) = true -> std_any_drive_letter (firstn 2 (skipn i src)) = true.
Proof. intros H. unfold starts_with_windows_drive_letter in H. apply andb_true_iff in H as [H _]. apply andb_true_iff in H as [_ H]. now rewrite <- StandardProofs.any_drive_eq. Qed.
Ltac sets := repeat (apply ms_then; [apply ms_set|]).
Lemma file_sim start : (start <= length src)%nat -> sim (next start) (m_parse_file X src start base) (parse_file (skipn start src) base).
Proof.
  intros L. unfold m_parse_file, parse_file, from. cbv zeta. rewrite slice_1. replace (start + 1 - 1)%nat with start by lia. replace (start + 1 + 1)%nat with (start + 2)%nat by lia. rewrite slice_k. sets. apply ms_cond; intros C.
  - pose proof (iscp_cur _ _ C). apply ms_then; [apply ms_when; intros D; apply solidus_sim; now apply isc_cur in D|]. done.
  - destruct base as [b|] eqn:BB; [|done]. apply ms_cond; intros F; [|done]. sets. apply ms_cond; intros C1; [apply isc_cur in C1 as (_ & ?); sets; done|]. apply ms_cond; intros C2; [apply isc_cur in C2 as (_ & ?); sets; done|].
    apply ms_cond; intros C3; [|done]. sets. apply ms_then; [|done]. apply ms_cond; intros D; [apply ms_act, q_shorten|]. apply ms_then; [|apply ms_set].
    assert (D' : std_any_drive_letter (firstn 2 (skipn start src)) = true) by (apply starts_drive; destruct (starts_with_windows_drive_letter (skipn start src)); [reflexivity|discriminate D]).
    mnote ltac:(apply mu_drive; exact D').
Qed.
Lemma file_slash_sim start : (start <= length src)%nat -> sim (next start) (m_parse_file_slash X src start base) (parse_file_slash (skipn start src) base).
Proof.
  intros L. unfold m_parse_file_slash, parse_file_slash, from. cbv zeta. rewrite slice_1. replace (start + 1 - 1)%nat with start by lia. apply ms_cond; intros C.
  - pose proof (iscp_cur _ _ C). apply ms_then; [apply ms_when; intros D; apply solidus_sim; now apply isc_cur in D|]. done.
  - destruct base as [b|]; [|done]. apply ms_cond; intros F; [|done]. sets. apply ms_then; [|done]. destruct (path b) as [o|[|s l]]; [now apply ms_ret|now apply ms_ret|].
    apply ms_when. intros _. apply ms_use. intros u. destruct (path u); [apply ms_exc; reflexivity|apply ms_act, q_append].
Qed.
Lemma file_host_end_sim start i pre buffer rest : at_ start i pre buffer rest -> sim (next start) (m_file_host_end X so src (start + i) buffer) (file_host_end E so i buffer).
Proof.
  intros AT. pose proof (at_rest _ _ _ _ _ AT) as (SK & LE). unfold m_file_host_end, file_host_end. apply ms_cond; intros B.
  - apply andb_true_iff in B as [_ B]. rewrite StandardProofs.any_drive_eq in B. pose proof (at_buf _ _ _ _ _ AT) as BF. destruct AT as (H1 & H2 & H3).
    assert (B2 : firstn 2 (skipn (length pre) src) = buffer) by (rewrite BF; destruct buffer as [|x [|y [|z r]]]; try discriminate B; reflexivity).
    assert (OB : okbit X (Lit (PStr buffer))) by (rewrite <- B2; apply ok_sub).
    assert (MM : url_message E code base src VFileDriveLetterHost [Txt ($"'file:' URL" ++ quote_s ++ $"host is a Windows drive letter: "); Lit (PStr buffer); Txt $" in "; Lit (PStr src); Txt $" at position "; Dec (N.of_nat (length pre))]).
    { rewrite <- B2. apply mu_drive_host. rewrite B2. exact B. }
    replace (start + i - length buffer)%nat with (length pre) by lia. apply ms_then; [|done]. mnote ltac:(exact MM).
  - destruct buffer as [|x r]; [sets; apply ms_cond; intros _; done|]. apply ms_use. intros u. eapply ms_bind; [apply hostp_sim; eapply at_occurs; exact AT|]. intros h ? <-. sets. apply ms_cond; intros _; done.
Qed.
Lemma file_host_sim start : (start <= length src)%nat -> sim (next start) (m_parse_file_host X src start so) (parse_file_host E (skipn start src) so).
Proof.
  intros L. unfold m_parse_file_host, parse_file_host, from. enough (G : forall rest i pre buffer, at_ start i pre buffer rest -> sim (next start) (m_file_host_loop X so src rest (start + i) buffer) (file_host_loop E so rest i buffer)).
  { specialize (G _ _ _ _ (at_0 start L)). now rewrite Nat.add_0_r in G. }
  induction rest as [|c t IH]; intros i pre buffer AT; cbn [m_file_host_loop file_host_loop]; [eapply file_host_end_sim; exact AT|]. apply ms_cond; intros C; [eapply file_host_end_sim; exact AT|].
  replace (start + i + 1)%nat with (start + S i)%nat by lia. eapply IH. apply at_more. exact AT.
Qed.

(* ---------- the code point loops ---------- *)
Lemma fragment_sim start : (start <= length src)%nat -> sim (next start) (m_parse_fragment X src start) (parse_fragment (skipn start src)).
Proof.
  intros L. unfold m_parse_fragment, parse_fragment, from. enough (G : forall rest i pre b buffer, at_ start i pre b rest -> sim (next start) (m_fragment_loop X src rest (start + i) buffer) (fragment_loop rest i buffer)).
  { specialize (G _ _ _ _ [] (at_0 start L)). now rewrite Nat.add_0_r in G. }
  induction rest as [|c t IH]; intros i pre b buffer AT; cbn [m_fragment_loop fragment_loop]; pose proof (at_rest _ _ _ _ _ AT) as (SK & LE).
  - apply ms_then; [apply ms_when; intros _; apply ms_act, q_fragment|]. done.
  - apply ms_then; [apply unit_sim; exact SK|]. replace (start + i + 1)%nat with (start + S i)%nat by lia. eapply IH. apply at_more. exact AT.
Qed.
Lemma opaque_path_sim start : (start <= length src)%nat -> sim (next start) (m_parse_opaque_path X src start) (parse_opaque_path (skipn start src)).
Proof.
  intros L. unfold m_parse_opaque_path, parse_opaque_path, from. enough (G : forall rest i pre b, at_ start i pre b rest -> sim (next start) (m_opaque_path_loop X src rest (start + i)) (opaque_path_loop rest i)).
  { specialize (G _ _ _ _ (at_0 start L)). now rewrite Nat.add_0_r in G. }
  induction rest as [|c t IH]; intros i pre b AT; cbn [m_opaque_path_loop opaque_path_loop]; pose proof (at_rest _ _ _ _ _ AT) as (SK & LE); [done|].
  destruct (skip_cons _ _ _ _ SK) as (_ & _ & LT). apply ms_cond; intros C1; [sets; done|]. apply ms_cond; intros C2; [sets; done|].
  apply ms_then; [apply unit_sim; exact SK|]. apply ms_then; [apply ms_act, q_extend|]. replace (start + i + 1)%nat with (start + S i)%nat by lia. eapply IH. apply at_more. exact AT.
Qed.
Lemma path_sim start : (start <= length src)%nat -> sim (next start) (m_parse_path X src start so) (parse_path (skipn start src) so).
Proof.
  intros L. unfold m_parse_path, parse_path, from. enough (G : forall rest i pre b buffer, at_ start i pre b rest -> sim (next start) (m_path_loop X so src rest (start + i) buffer) (path_loop so rest i buffer)).
  { specialize (G _ _ _ _ [] (at_0 start L)). now rewrite Nat.add_0_r in G. }
  induction rest as [|c t IH]; intros i pre b buffer AT; cbn [m_path_loop path_loop]; pose proof (at_rest _ _ _ _ _ AT) as (SK & LE).
  - apply ms_then; [apply ms_act, q_flush|]. done.
  - destruct (skip_cons _ _ _ _ SK) as (_ & NT & LT). replace (start + i + 1 - 1)%nat with (start + i)%nat by lia. apply ms_use. intros u. apply ms_cond; intros C.
    + apply ms_then; [apply ms_when; intros D; apply solidus_sim; apply andb_true_iff in D as [_ D]; rewrite NT; f_equal; lia|]. apply ms_then; [apply ms_act, q_flush|].
      apply ms_cond; intros C1; [sets; done|]. apply ms_cond; intros C2; [sets; done|]. replace (start + i + 1)%nat with (start + S i)%nat by lia. eapply IH. apply at_more. exact AT.
    + apply ms_then; [apply unit_sim; exact SK|]. replace (start + i + 1)%nat with (start + S i)%nat by lia. eapply IH. apply at_more. exact AT.
Qed.
Lemma query_sim start enc : (start <= length src)%nat -> sim (next start) (m_parse_query X src start so enc) (parse_query E (skipn start src) so enc).
Proof.
  intros L. unfold m_parse_query, parse_query, from. enough (G : forall rest i pre b buffer, at_ start i pre b rest -> sim (next start) (m_query_loop X so enc src rest (start + i) buffer) (query_loop E so enc rest i buffer)).
  { specialize (G _ _ _ _ [] (at_0 start L)). now rewrite Nat.add_0_r in G. }
  induction rest as [|c t IH]; intros i pre b buffer AT; cbn [m_query_loop query_loop]; pose proof (at_rest _ _ _ _ _ AT) as (SK & LE).
  - apply ms_then; [apply ms_when; intros _; apply ms_act, q_query|]. done.
  - destruct (skip_cons _ _ _ _ SK) as (_ & NT & LT). apply ms_cond; intros C.
    + apply ms_then; [apply ms_act, q_query|]. sets. done.
    + apply ms_then; [apply unit_sim; exact SK|]. replace (start + i + 1)%nat with (start + S i)%nat by lia. eapply IH. apply at_more. exact AT.
Qed.

(* ---------- host and port ---------- *)
Lemma host_end_sim start i pre buffer rest : at_ start i pre buffer rest -> sim (next start) (m_host_end X so src (start + i) buffer) (host_end E so i buffer).
Proof.
  intros AT. pose proof (at_rest _ _ _ _ _ AT) as (SK & LE). unfold m_host_end, host_end. apply ms_use. intros u. apply ms_cond; intros B; [mfail ltac:(apply mu_no_host)|].
  apply ms_cond; intros B2; [done|]. eapply ms_bind; [apply hostp_sim; eapply at_occurs; exact AT|]. intros h ? <-. sets. apply ms_cond; intros _; done.
Qed.
Lemma host_st_sim start : (start <= length src)%nat -> sim (next start) (m_parse_host X src start so) (parse_host E (skipn start src) so).
Proof.
  intros L. unfold m_parse_host, parse_host, from. apply ms_use. intros u. apply ms_cond; intros F; [done|]. clear u F.
  enough (G : forall rest i pre buffer ins, at_ start i pre buffer rest -> sim (next start) (m_host_loop X so src rest (start + i) buffer ins) (host_loop E so rest i buffer ins)).
  { specialize (G _ _ _ _ false (at_0 start L)). now rewrite Nat.add_0_r in G. }
  induction rest as [|c t IH]; intros i pre buffer ins AT; cbn [m_host_loop host_loop]; [eapply host_end_sim; exact AT|]. pose proof (at_rest _ _ _ _ _ AT) as (SK & LE). destruct (skip_cons _ _ _ _ SK) as (_ & NT & LT).
  apply ms_use. intros u. apply ms_cond; intros C.
  - assert (C58 : c = 58) by lia. rewrite C58 in NT. apply ms_cond; intros B; [mfail ltac:(eapply mu_no_host_port; exact NT)|]. apply ms_cond; intros HO; [done|].
    eapply ms_bind; [apply hostp_sim; eapply at_occurs; exact AT|]. intros h ? <-. sets. done.
  - apply ms_cond; intros D; [eapply host_end_sim; exact AT|]. replace (start + i + 1)%nat with (start + S i)%nat by lia. eapply IH. apply at_more. exact AT.
Qed.
Lemma int_digits b z : b <> [] -> forallb std_digit b = true -> e_int E b 10 = Some z -> Z.to_N z = std_decimal b /\ repr_fails E (Z.to_N z) = false.
Proof.
  intros NB DG H. pose proof (StandardProofs.decimal_eq b DG) as V. unfold e_int in H. rewrite (py_int_digits_eq _ _ _ 10 b _ (or_intror (or_introl eq_refl)) NB V) in H. change (10 =? 10) with true in H. cbn [andb] in H.
  destruct (int_limit E) as [l|] eqn:IL; [destruct (l <? N.of_nat (length b)) eqn:LB; [discriminate H|]|]; injection H as <-; rewrite N2Z.id; (split; [reflexivity|]); apply printable_eq; auto; unfold printable; rewrite IL; [|exact I].
  apply N.lt_le_trans with (10 ^ N.of_nat (length b)); [|apply N.pow_le_mono_r; lia]. apply decimal_lt in V. rewrite N.mul_1_l in V. exact V.
Qed.
Lemma port_end_sim start i pre buffer rest : at_ start i pre buffer rest -> forallb std_digit buffer = true ->
  sim (next start) (m_port_end X so src (start + i) buffer) (port_end E so i buffer).
Proof.
  intros AT DG. pose proof (at_rest _ _ _ _ _ AT) as (SK & LE). unfold m_port_end, port_end. apply ms_then; [|apply ms_cond; intros _; done].
  destruct buffer as [|x r] eqn:BF; [now apply ms_ret|]. rewrite <- BF in *. destruct (e_int E buffer 10) as [z|] eqn:EI; [|apply ms_exc; reflexivity]. cbv zeta.
  destruct (int_digits buffer z) as (V & PR); [rewrite BF; discriminate|exact DG|exact EI|]. apply ms_cond; intros B.
  - destruct AT as (H1 & _ & _). rewrite V in *. assert (OP : okbit X (Dec (std_decimal buffer))) by exact PR. assert (B' : 65535 < std_decimal buffer) by lia. mfail ltac:(eapply mu_port_range; eassumption).
  - apply ms_use. intros u. apply ms_cond; intros _; apply ms_set.
Qed.
Lemma port_sim start : (start <= length src)%nat -> sim (next start) (m_parse_port X src start so) (parse_port E (skipn start src) so).
Proof.
  intros L. unfold m_parse_port, parse_port, from.
  enough (G : forall rest i pre buffer, at_ start i pre buffer rest -> forallb std_digit buffer = true -> sim (next start) (m_port_loop X so src rest (start + i) buffer) (port_loop E so rest i buffer)).
  { specialize (G _ _ _ _ (at_0 start L) eq_refl). now rewrite Nat.add_0_r in G. }
  induction rest as [|c t IH]; intros i pre buffer AT DG; cbn [m_port_loop port_loop]; [eapply port_end_sim; eassumption|]. apply ms_cond; intros D.
  - replace (start + i + 1)%nat with (start + S i)%nat by lia. eapply IH; [apply at_more; exact AT|]. rewrite forallb_app, DG. cbn [forallb andb]. rewrite <- StandardProofs.digit_eq, D. reflexivity.
  - apply ms_use. intros u. apply ms_cond; intros F; [eapply port_end_sim; eassumption|]. mfail ltac:(apply mu_port).
Qed.

(* ---------- the states of one code point ---------- *)
Lemma path_or_authority_sim start : (start <= length src)%nat -> sim (next start) (m_parse_path_or_authority src start) (parse_path_or_authority (skipn start src)).
Proof.
  intros L. unfold m_parse_path_or_authority, parse_path_or_authority. cbv zeta. rewrite slice_1. replace (start + 1 - 1)%nat with start by lia. apply ms_cond; intros C; [apply isc_cur in C as (_ & ?)|]; done.
Qed.
Lemma path_start_sim start : (start <= length src)%nat -> sim (next start) (m_parse_path_start X src start so) (parse_path_start (skipn start src) so).
Proof.
  intros L. unfold m_parse_path_start, parse_path_start. cbv zeta. rewrite slice_1. replace (start + 1 - 1)%nat with start by lia. apply ms_use. intros u. apply ms_cond; intros S1.
  - apply ms_then; [apply ms_when; intros D; apply solidus_sim; now apply isc_cur in D|]. destruct (iscp (cur (skipn start src)) $"/\") eqn:C; cbn [negb]; [apply iscp_cur in C|]; done.
  - apply ms_cond; intros C1; [apply andb_true_iff in C1 as [_ C1]; apply isc_cur in C1 as (_ & ?); sets; done|]. apply ms_cond; intros C2; [apply andb_true_iff in C2 as [_ C2]; apply isc_cur in C2 as (_ & ?); sets; done|].
    apply ms_cond; intros C3; [destruct (isc (cur (skipn start src)) 47) eqn:C; cbn [negb]; [apply isc_cur in C as (_ & ?)|]; done|].
    apply ms_then; [apply ms_when; intros _; apply ms_act, q_append|]. done.
Qed.
Lemma relative_sim start : (start <= length src)%nat -> sim (next start) (m_parse_relative X src start base) (parse_relative (skipn start src) base).
Proof.
  intros L. pose proof (solidus_sim start) as SS. unfold m_parse_relative, parse_relative. destruct base as [b|]; [|apply ms_exc; reflexivity]. apply ms_cond; intros F; [apply ms_exc; reflexivity|]. sets. cbv zeta. rewrite slice_1. replace (start + 1 - 1)%nat with start by lia.
  apply ms_use. intros u. apply ms_cond; intros C1; [apply isc_cur in C1 as (_ & ?); done|]. apply ms_cond; intros C2; [apply andb_true_iff in C2 as [_ C2]; apply isc_cur in C2 as (C2 & ?); apply ms_then; [exact (SS C2)|]; done|].
  sets. apply ms_cond; intros C3; [apply isc_cur in C3 as (_ & ?); sets; done|]. apply ms_cond; intros C4; [apply isc_cur in C4 as (_ & ?); sets; done|]. apply ms_cond; intros C5; [|done]. sets. apply ms_then; [apply ms_act, q_shorten|]. done.
Qed.
Lemma relative_slash_sim start : (start <= length src)%nat -> sim (next start) (m_parse_relative_slash X src start base) (parse_relative_slash (skipn start src) base).
Proof.
  intros L. unfold m_parse_relative_slash, parse_relative_slash. cbv zeta. rewrite slice_1. replace (start + 1 - 1)%nat with start by lia. apply ms_use. intros u.
  apply ms_cond; intros C1; [apply andb_true_iff in C1 as [_ C1]; apply iscp_cur in C1; apply ms_then; [apply ms_when; intros D; apply solidus_sim; now apply isc_cur in D|]; done|].
  apply ms_cond; intros C2; [apply isc_cur in C2 as (_ & ?); done|]. destruct base as [b|]; [|apply ms_exc; reflexivity]. sets. done.
Qed.
Lemma no_scheme_sim start : (start <= length src)%nat -> sim (next start) (m_parse_no_scheme X src start base) (parse_no_scheme (skipn start src) base).
Proof.
  intros L. unfold m_parse_no_scheme, parse_no_scheme. cbv zeta. rewrite slice_1. replace (start + 1 - 1)%nat with start by lia.
  assert (MS : forall (R : pstate * nat -> pstate * nat -> Prop), sim R (m_missing_scheme X src base) (fail VMissingScheme EURLParse)).
  { intros R. unfold m_missing_scheme. cbv zeta. assert (OB : okbit X (Lit (base_lit base))).
    { destruct base as [b|] eqn:BB; [cbn [base_lit]; apply ok_lit; now apply HB|]. split; [constructor|]. cbn [base_lit py_repr]. now eexists. }
    fold (base_lit base). eapply ms_fail; [vm_compute; reflexivity|discriminate| | |apply mu_scheme| |reflexivity]; [reflexivity|ok|reflexivity]. }
  destruct base as [b|]; [|apply MS]. apply ms_cond; intros C1; [apply MS|]. apply ms_cond; intros C2; [apply andb_true_iff in C2 as [_ C2]; apply isc_cur in C2 as (_ & ?); sets; done|]. apply ms_cond; intros C3; done.
Qed.

(* ---------- the scheme ---------- *)
Lemma slashes_two p : firstn 2 (skipn p src) = $"//" -> starts_with $"//" (skipn p src) = true.
Proof. intros H. apply starts_with_iff. rewrite <- (firstn_skipn 2 (skipn p src)), H. eexists. reflexivity. Qed.
Lemma missing_sim p : nth_error src p = Some 58 -> starts_with $"//" (skipn (S p) src) = false ->
  sim eq (mm_note X missing_solidus [PStr (firstn 2 (skipn (S p) src)); PStr src; PInt (N.of_nat (S p))]) (logm VSpecialSchemeMissingSolidus).
Proof.
  intros H NS. assert (K : firstn 2 (skipn (S p) src) <> $"//") by (intros K; apply slashes_two in K; congruence).
  assert (p < length src)%nat by (apply nth_error_Some; congruence). unfold missing_solidus. mnote ltac:(eapply mu_solidus; eassumption).
Qed.
Lemma scheme_colon_sim start i pre b buffer t : at_ start i pre b (58 :: t) ->
  sim (next start) (m_scheme_colon X base so src (start + i + 1) buffer) (scheme_colon base so t (S i) buffer).
Proof.
  intros AT. pose proof (at_rest _ _ _ _ _ AT) as (SK & LE). destruct (skip_cons _ _ _ _ SK) as (KT & NT & LT). replace (start + i + 1)%nat with (S (start + i)) in * by lia.
  unfold m_scheme_colon, scheme_colon, from. cbv zeta. replace (S (start + i) + 2)%nat with (S (start + i) + 2)%nat by lia. rewrite slice_k, KT. apply ms_use. intros u. apply ms_cond; intros OB; [done|]. sets.
  apply ms_cond; intros OV; [apply ms_then; [apply ms_when; intros _; apply ms_set|]; done|].
  assert (IV : forall (st : pstate), st = SPECIAL_AUTHORITY_SLASHES \/ st = SPECIAL_RELATIVE_OR_AUTHORITY -> exists p, S (start + i) = S p /\ nth_error src p = Some 58) by (intros st _; now exists (start + i)%nat).
  apply ms_cond; intros C1.
  { apply ms_then; [|done]. apply ms_when. intros D. rewrite <- KT. apply missing_sim; [exact NT|]. rewrite KT. destruct (starts_with $"//" t); [discriminate D|reflexivity]. }
  apply ms_cond; intros C2; [done; apply IV|]. apply ms_cond; intros C3; [done; apply IV|]. apply ms_cond; intros C4; [|sets; done].
  assert (S (start + i) + 1 <= length src)%nat. { apply starts_with_iff in C4 as (r & ->). pose proof (skip_cons (S (start + i)) src 47 r) as K. apply K. exact KT. }
  done.
Qed.
Lemma scheme_sim start : so = None \/ so = Some SCHEME_START -> (start <= length src)%nat -> sim (next start) (m_parse_scheme X src start base so) (parse_scheme (skipn start src) base so).
Proof.
  intros SO L. assert (OS : ovr = true -> so = Some SCHEME_START) by (destruct SO as [-> | ->]; [discriminate|reflexivity]). unfold m_parse_scheme, parse_scheme, from. cbv zeta. rewrite slice_1. replace (start + 1 - 1)%nat with start by lia.
  assert (NA : sim (next start) (if ovr then m_no_alpha X src else mm_ret (NO_SCHEME, start)) (if ovr then raise EURLParse else ret (NO_SCHEME, 0%nat))).
  { apply ms_cond; intros O; [|done]. unfold m_no_alpha. eapply ms_raise; [split; [exact (OS O)|left; reflexivity]|reflexivity|]. ok. }
  assert (NC : sim (next start) (if ovr then m_no_colon X src else mm_ret (NO_SCHEME, start)) (if ovr then raise EURLParse else ret (NO_SCHEME, 0%nat))).
  { apply ms_cond; intros O; [|done]. unfold m_no_colon. eapply ms_raise; [split; [exact (OS O)|right; reflexivity]|reflexivity|]. ok. }
  enough (G : forall rest i pre b buffer, at_ start i pre b rest -> sim (next start) (m_scheme_loop X base so src start rest (start + i) buffer) (scheme_loop base so rest i buffer)).
  { pose proof (at_0 start L) as AT. destruct (skipn start src) as [|c t] eqn:SK; cbn [cur]; [exact NA|]. destruct (skip_cons _ _ _ _ SK) as (KT & NT & LT). apply ms_cond; intros A; [|exact NA]. rewrite KT. eapply G. apply at_more. exact AT. }
  induction rest as [|c t IH]; intros i pre b buffer AT; cbn [m_scheme_loop scheme_loop]; [exact NC|]. apply ms_cond; intros C1.
  - replace (start + i + 1)%nat with (start + S i)%nat by lia. eapply IH. apply at_more. exact AT.
  - apply ms_cond; intros C2; [|exact NC]. assert (C58 : c = 58) by lia. rewrite C58 in AT. eapply scheme_colon_sim. exact AT.
Qed.
Lemma ignore_sim start : (start <= length src)%nat -> sim (next start) (m_parse_ignore_slashes X src start) (parse_ignore_slashes (skipn start src)).
Proof.
  intros L. unfold m_parse_ignore_slashes, parse_ignore_slashes, from. enough (G : forall rest i pre b, at_ start i pre b rest -> sim (next start) (m_ignore_slashes_loop X src rest (start + i)) (ignore_slashes_loop rest i)).
  { specialize (G _ _ _ _ (at_0 start L)). now rewrite Nat.add_0_r in G. }
  induction rest as [|c t IH]; intros i pre b AT; cbn [m_ignore_slashes_loop ignore_slashes_loop]; pose proof (at_rest _ _ _ _ _ AT) as (SK & LE); [done|].
  destruct (skip_cons _ _ _ _ SK) as (_ & NT & LT). replace (start + i + 1 - 1)%nat with (start + i)%nat by lia. apply ms_cond; intros C; [|done].
  assert (CC : c = 47 \/ c = 92) by (apply mem_In in C; cbn in C; destruct C as [C|[C|[]]]; [left|right]; symmetry; exact C). apply ms_then; [mnote ltac:(eapply mu_solidi; eassumption)|]. replace (start + i + 1)%nat with (start + S i)%nat by lia. eapply IH. apply at_more. exact AT.
Qed.
Lemma special_sim start nx : (start <= length src)%nat -> (exists p, start = S p /\ nth_error src p = Some 58) -> nx = RELATIVE \/ nx = SPECIAL_AUTHORITY_IGNORE_SLASHES ->
  sim (next start) (m_special_slashes X nx src start)
    (if starts_with $"//" (skipn start src) then ret (SPECIAL_AUTHORITY_IGNORE_SLASHES, 2%nat) else logm VSpecialSchemeMissingSolidus ;; ret (nx, 0%nat)).
Proof.
  intros L (p & -> & NT) NX. unfold m_special_slashes, from. cbv zeta. rewrite slice_1, slice_k. replace (S p + 1 - 1)%nat with (S p) by lia.
  assert (G : isc (cur (skipn (S p) src)) 47 && starts_with $"/" (skipn (S p + 1) src) = starts_with $"//" (skipn (S p) src)).
  { destruct (skipn (S p) src) as [|c t] eqn:SK; [reflexivity|]. destruct (skip_cons _ _ _ _ SK) as (KT & _ & _). rewrite KT. cbn [cur isc]. change (starts_with $"//" (c :: t)) with ((47 =? c) && starts_with $"/" t). now rewrite (N.eqb_sym c 47). }
  rewrite G. apply ms_cond; intros C.
  - apply starts_with_iff in C as (r & C). change ($"//" ++ r) with (47 :: 47 :: r) in C. destruct (skip_cons _ _ _ _ C) as (C2 & _ & _). destruct (skip_cons _ _ _ _ C2) as (_ & _ & LT). done.
  - apply ms_then; [apply missing_sim; [exact NT|exact C]|]. destruct NX as [-> | ->]; done.
Qed.

(* ---------- the loop ---------- *)
Lemma step_sim st start enc : (start <= length src)%nat -> inv st start -> sim (next start) (m_step X base enc so st src start) (step E base enc so st (skipn start src)).
Proof.
  intros L IV. destruct st; cbn [m_step step].
  - done.
  - now apply authority_sim.
  - now apply file_host_sim.
  - now apply file_slash_sim.
  - now apply file_sim.
  - now apply fragment_sim.
  - now apply host_st_sim.
  - now apply host_st_sim.
  - now apply no_scheme_sim.
  - now apply opaque_path_sim.
  - now apply path_or_authority_sim.
  - now apply path_start_sim.
  - now apply path_sim.
  - now apply port_sim.
  - now apply query_sim.
  - now apply relative_slash_sim.
  - now apply relative_sim.
  - apply scheme_sim; [now apply (proj2 IV)|exact L].
  - apply ms_exc. reflexivity.
  - now apply ignore_sim.
  - unfold parse_special_authority_slashes. apply special_sim; [exact L|apply (proj1 IV); now left|now right].
  - unfold parse_special_relative_or_authority. apply special_sim; [exact L|apply (proj1 IV); now right|now left].
Qed.
Lemma run_sim fuel enc : forall st start, (start <= length src)%nat -> inv st start -> sim eq (m_run X fuel base enc so st src start) (run_fsm fuel E base enc so st (skipn start src)).
Proof.
  induction fuel as [|f IH]; intros st start L IV.
  - destruct st; cbn [m_run run_fsm]; first [now apply ms_ret | apply ms_exc; reflexivity].
  - assert (G : sim eq (r <m m_step X base enc so st src start ;; m_run X f base enc so (fst r) src (snd r)) (r <- step E base enc so st (skipn start src) ;; run_fsm f E base enc so (fst r) (skipn (snd r) (skipn start src)))).
    { eapply ms_bind; [now apply step_sim|]. intros a b (K1 & K2 & K3 & K4). rewrite <- K1, skip_skip, <- K2. now apply IH. }
    destruct st; try exact G. cbn [m_run run_fsm]. now apply ms_ret.
Qed.
End Url.

Lemma msim_weak {A B} (P P' : verr -> list bit -> Prop) (U U' : verr -> Prop) Q (R : A -> B -> Prop) m p : (forall v b, P v b -> P' v b) -> (forall v, U v -> U' v) -> msim P U Q R m p -> msim P' U' Q R m p.
Proof.
  intros HP HU H u. destruct (H u) as (H1 & H2 & H3).
  pose proof (wsim_weak P P' U U' Q R (fst (m u), snd (snd (m u))) (fst (p u), snd (snd (p u))) HP HU (conj H1 H3)) as (K1 & K2). split; [exact K1|]. split; [exact H2|exact K2].
Qed.

Lemma msim_quiet {A B} (P : verr -> list bit -> Prop) (U : verr -> Prop) (Q Q' : list bit -> Prop) (R : A -> B -> Prop) m p : (forall b, Q b -> Q' b) -> msim P U Q R m p -> msim P U Q' R m p.
Proof.
  intros HQ H u. destruct (H u) as (H1 & H2 & H3). split; [exact H1|]. split; [exact H2|]. destruct (snd (snd (m u))), (snd (snd (p u))); cbn [same] in *; auto. destruct H3 as (-> & [K|(K1 & x & bits & K2 & K3 & K4)]); split; auto; [now left|right].
  split; [exact K1|]. exists x, bits. auto.
Qed.
Lemma lstrip_len t : (length (std_lstrip t) <= length t)%nat.
Proof. induction t as [|c t IH]; [reflexivity|]. cbn [std_lstrip]. destruct (std_c0_space c); cbn [length]; lia. Qed.
Lemma rstrip_len t : (length (std_rstrip t) <= length t)%nat.
Proof. induction t as [|c t IH]; [reflexivity|]. cbn [std_rstrip]. destruct (std_rstrip t) as [|x r]; [destruct (std_c0_space c)|]; cbn [length] in *; lia. Qed.
Lemma strip_len s : (length (std_rstrip (std_lstrip s)) <= length s)%nat.
Proof. pose proof (lstrip_len s). pose proof (rstrip_len (std_lstrip s)). lia. Qed.
Definition short (s : str) : Prop := N.of_nat (length s) < 10 ^ 640.

Section Top.
Context (X : menv).
Local Notation E := (m_env X).
Local Notation code := (m_icu_code X).
Context (HL : limit_ok E) (HID : idna_ok E).
Lemma icu_strings d errors o : icu_to_ascii E 28 d = IcuOk errors o -> counted errors = 0 -> o <> [] -> is_pystr o.
Proof.
  intros H1 H2 H3. apply ascii_pystr. apply (idna_stable E HID d). unfold domain_to_ascii. cbv zeta iota. change (4 + 8 + 16 + 0) with 28. change (N.lor CHECK_HYPHENS_ERRORS VERIFY_DNS_LENGTH_ERRORS) with 63. rewrite H1.
  change (N.ldiff errors 63) with (counted errors). rewrite H2. destruct o; [contradiction|reflexivity].
Qed.
Lemma short_input s : short s -> short (std_input s).
Proof.
  unfold short. intros H. assert (L : (length (std_input s) <= length s)%nat); [|lia]. rewrite StandardProofs.input_eq. apply StandardProofs.clean_len.
Qed.
Lemma parse_into_sim base s enc so : (forall b, base = Some b -> is_pystr (href b)) -> is_pystr s -> short s -> (so = Some SPECIAL_AUTHORITY_SLASHES \/ so = Some SPECIAL_RELATIVE_OR_AUTHORITY -> False) ->
  msim (fun v bits => (v = VInvalidURLUnit /\ (exists c, In c s /\ std_tab_newline c = true) /\ bits = [Txt $"remove all ASCII tab or newline from "; Lit (PStr s)]) \/ url_message E code base (std_strip_tabs s) v bits)
    (unquoted (has_validity E) (unquotable E (std_strip_tabs s))) (silent (std_strip_tabs s) so) eq (m_parse_into X s base enc so) (parse_into E s base enc so).
Proof.
  intros HB HS SH NS. unfold m_parse_into, parse_into. apply ms_then.
  - apply ms_when. intros T. apply existsb_exists in T as (c & Hc & T). eapply ms_note; [vm_compute; reflexivity|discriminate| | |left; split; [reflexivity|split; [exists c; split; [exact Hc|exact T]|reflexivity]]]; [reflexivity|].
    constructor; [exact I|]. constructor; [apply ok_str; exact HS|constructor].
  - change (remove_tabs s) with (std_strip_tabs s). eapply msim_weak.
    3: { apply (run_sim X HL icu_strings base HB (std_strip_tabs s)) with (start := 0%nat).
      - apply (ApiProofs.remove_tabs_pystr s HS).
      - unfold short in SH. assert (L : (length (std_strip_tabs s) <= length s)%nat) by apply StandardProofs.filter_len. lia.
      - lia.
      - split; [intros [K|K]; exfalso; apply NS; destruct so; try discriminate K; [left|right]; rewrite K; reflexivity|]. intros K. destruct so as [st|]; [right; now rewrite K|now left]. }
    + intros v b K. right. exact K.
    + intros v K; exact K.
Qed.
Lemma parse_new_sim base s enc : (forall b, base = Some b -> is_pystr (href b)) -> is_pystr s -> short s ->
  wsim (input_message E code base s) (unquoted (has_validity E) (unquotable E (std_input s))) (fun _ => False) eq (m_parse_new X s base enc) (parse_new E s base enc).
Proof.
  intros HB HS SH. unfold m_parse_new, parse_new.
  assert (G : msim (input_message E code base s) (unquoted (has_validity E) (unquotable E (std_input s))) (fun _ => False) eq
    (mm_when (needs_strip s) (mm_note X $"invalid-URL-unit: remove any leading and trailing C0 control or space from %r" [PStr s]) >m m_parse_into X (strip_c0 s) base enc None)
    (when (needs_strip s) (logm VInvalidURLUnit) ;; parse_into E (strip_c0 s) base enc None)).
  { assert (SE : strip_c0 s = std_rstrip (std_lstrip s)) by (unfold strip_c0; now rewrite StandardProofs.lstrip_eq, StandardProofs.rstrip_eq).
    apply ms_then.
    - apply ms_when. intros N0. assert (C : exists c, c <= 32 /\ (hd_error s = Some c \/ exists t, s = t ++ [c])).
      { destruct s as [|c t]; [discriminate N0|]. unfold needs_strip in N0. apply orb_true_iff in N0 as [N0|N0]; unfold is_c0_space in N0.
        - exists c. split; [lia|left; reflexivity].
        - exists (last (c :: t) 0). split; [lia|]. right. exists (removelast (c :: t)). apply app_removelast_last. discriminate. }
      destruct C as (c & C1 & C2). eapply ms_note; [vm_compute; reflexivity|discriminate| | |eapply mi_strip; eassumption]; [reflexivity|]. constructor; [exact I|]. constructor; [apply ok_str; exact HS|constructor].
    - rewrite SE. eapply msim_weak.
      3: { eapply msim_quiet; [|apply (parse_into_sim base (std_rstrip (std_lstrip s)) enc None HB)].
        - intros b (K & _). discriminate K.
        - rewrite <- SE. revert HS. apply pystr_sub. unfold strip_c0, rstrip_by. intros c H. apply in_rev in H. apply drop_while_in, in_rev, drop_while_in in H. exact H.
        - unfold short in *. assert (L : (length (strip_c0 s) <= length s)%nat) by (rewrite SE; apply strip_len). rewrite SE in L. lia.
        - intros [K|K]; discriminate K. }
      + intros v b [(-> & (c & K1 & K2) & ->)|K]; [eapply mi_tabs; eassumption|]. apply mi_url. exact K.
      + intros v K; exact K. }
  specialize (G new_url). destruct ((mm_when (needs_strip s) _ >m _) new_url) as [l [u r]]. destruct ((when (needs_strip s) (logm VInvalidURLUnit) ;; _) new_url) as [l' [u' r']]. cbn [fst snd] in G. destruct G as (G1 & <- & G2).
  destruct r as [a|e t], r' as [a'|e']; cbn [same] in G2; try contradiction; (split; [exact G1|]); cbn [fst snd same]; [reflexivity|exact G2].
Qed.
End Top.
