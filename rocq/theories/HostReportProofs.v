(** The validation errors of the host parser against those of SpecHostReports.v. *)
From Coq Require Import Ascii String.
From Coq Require Import NArith ZArith Bool Arith Lia ZifyBool ZifyN ZifyNat List.
From Verif Require Import PyStr PyInt Codec Env HostModel UrlRecord Parser Lemmas CodecProofs QuoteProofs
  IPv4Proofs IPv6Proofs HostProofs WfProofs ValidatorProofs ParamProofs StandardProofs SpecPyInt IntGrammar IPv6Grammar HostStandard ReportProofs ReportStandard
  SpecText SpecHost SpecUrl SpecParser SpecReports SpecHostReports.
Import ListNotations.
Open Scope N_scope.

Lemma fst_wbind {A B} (m : W A) (f : A -> W B) : fst (wbind m f) = fst m ++ match snd m with Ok a => fst (f a) | Err _ => [] end.
Proof. destruct m as [l [a|e]]; cbn; [destruct (f a); reflexivity|now rewrite app_nil_r]. Qed.
Lemma named_app a b : named_errors (a ++ b) = named_errors a ++ named_errors b.
Proof. apply flat_map_app. Qed.

(* ---------- IPv4 ---------- *)
Definition number_agrees (E : env) (p : str) : Prop :=
  match std_ipv4_number p with
  | Some (n, ve) => parse_ipv4_number E p = (Z.of_N n, ve)
  | None => (fst (parse_ipv4_number E p) < 0)%Z
  end.
Lemma number_code E p : ~ odd_number E p -> short_for (int_limit E) p -> number_agrees E p.
Proof.
  intros O L. unfold number_agrees. destruct (std_ipv4_number p) as [[n ve]|] eqn:S.
  - clear O. assert (EI : forall b s ve', (b = 8 \/ b = 10 \/ b = 16) -> s <> [] -> short_for (int_limit E) s ->
       match std_radix_value b s 0 with Some v => Some (v, ve') | None => None end = Some (n, ve) ->
       match e_int E s b with Some z => (z, ve') | None => ((-1)%Z, true) end = (Z.of_N n, ve)).
    { intros b s ve' Hb Hs HL V. destruct (std_radix_value b s 0) as [v|] eqn:R; [|discriminate]. injection V as -> ->.
      unfold e_int. rewrite (py_int_digits _ _ _ b s n Hb Hs R); [reflexivity|intros _; exact HL]. }
    unfold std_ipv4_number in S. unfold parse_ipv4_number. destruct p as [|c t]; [discriminate|].
    destruct t as [|x t]; [apply EI; auto; discriminate|]. destruct (c =? 48); [|apply EI; auto; discriminate].
    assert (L2 : forall q, (length q <= length (c :: x :: t))%nat -> short_for (int_limit E) q).
    { intros q Q. unfold short_for in *. destruct (int_limit E); [|exact I]. lia. }
    destruct ((x =? 120) || (x =? 88)).
    + destruct t as [|y t]; [injection S as <- <-; reflexivity|]. apply EI; auto; [discriminate|]. apply L2. cbn [length]. lia.
    + apply EI; auto; [discriminate|]. apply L2. cbn [length]. lia.
  - apply number_fails. now apply std_number_code.
Qed.
Lemma numbers_log E parts : Forall (number_agrees E) parts ->
  fst (ipv4_numbers E parts) = std_ipv4_part_reports parts /\
  match std_ipv4_numbers parts with
  | Some ns => snd (ipv4_numbers E parts) = Ok ns
  | None => exists e, snd (ipv4_numbers E parts) = Err e
  end.
Proof.
  intros F. induction F as [|p t X F [IH1 IH2]]; [split; reflexivity|]. unfold number_agrees in X.
  cbn [ipv4_numbers std_ipv4_part_reports std_ipv4_numbers]. destruct (std_ipv4_number p) as [[n ve]|].
  - rewrite X. cbn [fst snd]. replace (Z.of_N n <? 0)%Z with false by lia. rewrite N2Z.id. rewrite fst_wbind, snd_wbind, <- IH1.
    destruct ve; cbn [wlog wret fst snd report]; rewrite fst_wbind, snd_wbind; (destruct (std_ipv4_numbers t) as [ns|]; [rewrite IH2|destruct IH2 as (e & IH2); rewrite IH2]);
      cbn [wret fst snd app]; rewrite ?app_nil_r; split; try reflexivity; eauto.
  - replace (fst (parse_ipv4_number E p) <? 0)%Z with true by lia. split; [reflexivity|exists EIPv4; reflexivity].
Qed.
Lemma std_ipv4_reports_eq s : std_ipv4_reports s =
  report (match last (split 46 s) [] with [] => true | _ => false end) VIPv4EmptyPart ++
  (if (4 <? length (address_parts s))%nat then [VIPv4TooManyParts]
   else std_ipv4_part_reports (address_parts s) ++
        match std_ipv4_numbers (address_parts s) with None => [] | Some ns => report (existsb (fun n => 255 <? n) ns) VIPv4OutOfRange end).
Proof.
  unfold std_ipv4_reports. rewrite parts_eq, std_split_eq. cbv zeta.
  replace (if match last (split 46 s) [] with [] => true | _ :: _ => false end then match split 46 s with [_] => split 46 s | _ => removelast (split 46 s) end else split 46 s)
    with (drop_last_empty (split 46 s)); [reflexivity|].
  rewrite <- drop_last_eq. destruct (last (split 46 s) []); reflexivity.
Qed.
Lemma ipv4_log E s : Forall (number_agrees E) (address_parts s) ->
  named_errors (fst (ipv4_parse E s)) = std_ipv4_reports s.
Proof.
  intros F. rewrite std_ipv4_reports_eq. destruct (numbers_log E _ F) as [A B]. rewrite parts_eq in *. unfold ipv4_parse. cbv zeta.
  rewrite fst_wbind, named_app. set (parts := drop_last_empty (split 46 s)) in *. f_equal.
  - destruct (last (split 46 s) []); reflexivity.
  - match goal with |- context [match snd ?m with Ok _ => _ | Err _ => _ end] => assert (Q : snd m = Ok tt) by (destruct (last (split 46 s) []); reflexivity); rewrite Q; clear Q end.
    destruct (4 <? length parts)%nat; [reflexivity|]. rewrite fst_wbind, named_app, A.
    assert (NE : named_errors (std_ipv4_part_reports parts) = std_ipv4_part_reports parts).
    { clear. induction parts as [|p t IH]; [reflexivity|]. cbn [std_ipv4_part_reports]. destruct (std_ipv4_number p) as [[n ve]|]; [|reflexivity]. rewrite named_app, IH. destruct ve; reflexivity. }
    rewrite NE. f_equal. destruct (std_ipv4_numbers parts) as [ns|]; [rewrite B|destruct B as (e & B); rewrite B; reflexivity].
    rewrite fst_wbind, named_app. destruct (existsb (fun x => 255 <? x) ns).
    + destruct (has_validity E && existsb (repr_fails E) ns); [reflexivity|]. cbn [wlog fst snd]. destruct (_ && _); [reflexivity|]. destruct (_ <=? _); reflexivity.
    + cbn [wret fst snd]. destruct (_ && _); [reflexivity|]. destruct (_ <=? _); reflexivity.
Qed.

(* ---------- IPv6: at most one error ---------- *)
Definition single {A} (m : W A) : Prop :=
  match snd m with Ok _ => fst m = [] | Err e => if match e with EIPv6 => true | _ => false end then length (fst m) = 1%nat else fst m = [] end.
Lemma single_ret {A} (a : A) : single (wret a). Proof. reflexivity. Qed.
Lemma single_fail {A} v : single (@wfail A v EIPv6). Proof. reflexivity. Qed.
Lemma single_opt {A} e (o : option A) : e <> EIPv6 -> single (of_opt e o).
Proof. intros H. destruct o; [reflexivity|]. unfold single. cbn [of_opt wraise snd fst]. destruct e; try reflexivity. congruence. Qed.
Lemma single_bind {A B} (m : W A) (f : A -> W B) : single m -> (forall a, single (f a)) -> single (wbind m f).
Proof.
  intros H G. unfold single in *. rewrite fst_wbind, snd_wbind. destruct (snd m) as [a|e].
  - rewrite H. cbn [app]. apply G.
  - rewrite app_nil_r. exact H.
Qed.
Ltac single_tac :=
  repeat first [apply single_ret | apply single_fail | (apply single_opt; discriminate) | (apply single_bind; [|intros ?])
    | match goal with |- single (if ?c then _ else _) => destruct c end
    | match goal with |- single (match ?c with _ => _ end) => destruct c end].
Lemma single_piece E c st : single (ipv6_piece E c st).
Proof. unfold ipv6_piece. cbv zeta. single_tac. Qed.
Lemma single_sep E c st : single (ipv6_sep E c st).
Proof. unfold ipv6_sep. cbv zeta. single_tac. apply single_piece. Qed.
Lemma single_loop E rest : forall st, single (ipv6_loop E rest st).
Proof.
  induction rest as [|c t IH]; intros st; cbn [ipv6_loop]; single_tac; try apply single_sep; apply IH.
Qed.
Lemma single_v6 E s : single (ipv6_parse E s).
Proof. unfold ipv6_parse. cbv zeta. single_tac. apply single_loop. Qed.
Lemma v6_log E s : length (fst (ipv6_parse E s)) = match snd (ipv6_parse E s) with Ok _ | Err EValue => 0%nat | Err _ => 1%nat end.
Proof.
  pose proof (single_v6 E s) as H. pose proof (ipv6_parse_total E s) as T. unfold single in H. destruct (snd (ipv6_parse E s)) as [a|e]; [now rewrite H|].
  destruct T as [-> |[-> _]]; [exact H|now rewrite H].
Qed.

(* ---------- opaque hosts ---------- *)
Lemma units_none s : url_units (fun c => std_url_code_point c = true) s <->
  existsb (fun c => negb (std_url_code_point c) && negb (c =? 37)) s = false /\ std_bad_escape s = false.
Proof.
  split.
  - intros H. induction H as [|c t A H [IH1 IH2]|x y t X Y H [IH1 IH2]]; [split; reflexivity| |].
    + cbn [existsb std_bad_escape]. rewrite A, IH1, IH2. cbn [negb andb orb]. split; [reflexivity|].
      destruct (c =? 37) eqn:C; [|reflexivity]. apply N.eqb_eq in C. subst c. discriminate A.
    + assert (P : forall z, std_hex z <> None -> std_url_code_point z = true /\ (z =? 37) = false).
      { intros z Z. unfold std_hex in Z. unfold std_url_code_point. destruct ((48 <=? z) && (z <=? 57)) eqn:B1; [lia|]. destruct ((65 <=? z) && (z <=? 70)) eqn:B2; [lia|]. destruct ((97 <=? z) && (z <=? 102)) eqn:B3; [lia|congruence]. }
      destruct (P x X) as [X1 X2], (P y Y) as [Y1 Y2].
      cbn [existsb std_bad_escape]. rewrite X1, X2, Y1, Y2, IH1, IH2. cbn [negb andb orb]. rewrite andb_false_r. split; [reflexivity|].
      unfold std_two_hex, std_hex_digit. destruct (std_hex x); [|congruence]. destruct (std_hex y); [|congruence]. reflexivity.
  - assert (G : forall n s, (length s <= n)%nat -> existsb (fun c => negb (std_url_code_point c) && negb (c =? 37)) s = false -> std_bad_escape s = false -> url_units (fun c => std_url_code_point c = true) s).
    { clear s. induction n as [|n IH]; intros s L A B; (destruct s as [|c t]; [constructor|]); [cbn [length] in L; lia|].
      cbn [existsb std_bad_escape length] in *. apply orb_false_iff in A as [A1 A2]. apply orb_false_iff in B as [B1 B2].
      destruct (c =? 37) eqn:C.
      - apply N.eqb_eq in C. subst c. cbn [andb] in B1. unfold std_two_hex in B1. destruct t as [|x [|y t]]; try discriminate B1.
        cbn [existsb std_bad_escape length] in *. apply orb_false_iff in A2 as [_ A2]. apply orb_false_iff in A2 as [_ A2].
        apply orb_false_iff in B2 as [_ B2]. apply orb_false_iff in B2 as [_ B2].
        unfold std_hex_digit in B1. apply uu_esc; [destruct (std_hex x); [discriminate|discriminate B1]|destruct (std_hex x), (std_hex y); discriminate|]. apply IH; auto. lia.
      - apply uu_cp; [destruct (std_url_code_point c); [reflexivity|discriminate A1]|]. apply IH; auto. lia. }
    intros [A B]. exact (G (length s) s (Nat.le_refl _) A B).
Qed.
Lemma opaque_log s : existsb std_forbidden_host s = false -> fst (parse_opaque_host s) = firstn 1 (std_opaque_reports s).
Proof.
  intros F. unfold parse_opaque_host. rewrite (existsb_ext' _ std_forbidden_host) by (intros; apply forbidden_host_eq). rewrite F, fst_wbind.
  unfold std_opaque_reports. pose proof (url_units_plain s) as U. rewrite units_none in U. destruct (is_url_units $"%" [] s).
  - cbn [wlog fst snd wret]. rewrite app_nil_r. clear F. destruct (existsb (fun c => negb (std_url_code_point c) && negb (c =? 37)) s); [reflexivity|]. destruct (std_bad_escape s); [reflexivity|]. destruct U as [_ U]. discriminate U. auto.
  - destruct (proj1 U eq_refl) as [-> ->]. reflexivity.
Qed.

(* ---------- hosts ---------- *)
Lemma removelast_in {A} (x : A) l : In x (removelast l) -> In x l.
Proof. induction l as [|y l IH]; [intros []|]. destruct l as [|z l]; [intros []|]. change (removelast (y :: z :: l)) with (y :: removelast (z :: l)). intros [-> |P]; [now left|right; auto]. Qed.
Lemma join_len sep (x : str) l : In x l -> (length x <= length (join sep l))%nat.
Proof.
  induction l as [|y l IH]; [intros []|]. intros [-> |H].
  - destruct l; cbn [join]; rewrite ?app_length; lia.
  - destruct l as [|z l]; [destruct H|]. specialize (IH H). change (join sep (y :: z :: l)) with (y ++ sep ++ join sep (z :: l)). rewrite !app_length. lia.
Qed.
Lemma split_len (p s : str) : In p (split 46 s) -> (length p <= length s)%nat.
Proof. intros H. rewrite <- (join_split 46 s). now apply join_len. Qed.
Lemma bare_reports f c t o : c <> 91 -> std_host_reports f (c :: t) o =
  if o then if existsb std_forbidden_host (c :: t) then [VHostInvalidCP] else std_opaque_reports (c :: t)
  else match f (std_utf8_decode (std_percent_decode (std_utf8_encode (c :: t)))) with
       | None => [VDomainToAscii]
       | Some d => if existsb std_forbidden_domain d then [VDomainInvalidCP] else if std_ends_in_number d then std_ipv4_reports d else []
       end.
Proof.
  intros C. apply N.eqb_neq in C. unfold std_host_reports. destruct c as [|p]; [reflexivity|]. do 7 (destruct p as [p|p|]; try reflexivity; try discriminate C).
Qed.
Lemma to_ascii_log E d : fst (domain_to_ascii E false d) = match snd (domain_to_ascii E false d) with Ok _ => [] | Err _ => [VDomainToAscii] end.
Proof.
  unfold domain_to_ascii. cbv zeta. destruct (icu_to_ascii E _ d) as [er dest|?]; [|reflexivity]. destruct (negb _); [reflexivity|]. destruct dest; reflexivity.
Qed.
Lemma bare_log E c t : c <> 91 -> scalar_string (c :: t) ->
  fst (host_parse E (c :: t) false) =
  match code_to_ascii E (std_utf8_decode (std_percent_decode (std_utf8_encode (c :: t)))) with
  | None => [VDomainToAscii]
  | Some d => if existsb std_forbidden_domain d then [VDomainInvalidCP] else if is_ends_in_a_number E d then fst (ipv4_parse E d) else []
  end.
Proof.
  intros C [Hp Hs]. unfold host_parse. apply N.eqb_neq in C. rewrite C. cbv zeta. rewrite fst_wbind, to_ascii_log, utf8_decode_spec, string_percent_decode_spec, svs_free by assumption.
  unfold code_to_ascii. destruct (snd (domain_to_ascii E false _)) as [d|e]; [|reflexivity]. cbn [app].
  rewrite (existsb_ext' _ std_forbidden_domain) by (intros; apply forbidden_domain_eq). destruct (existsb std_forbidden_domain d); [reflexivity|].
  destruct (is_ends_in_a_number E d); [|reflexivity]. rewrite fst_wbind. destruct (snd (ipv4_parse E d)); cbn [wret fst]; now rewrite app_nil_r.
Qed.
(** domains *)
Theorem domain_log E h : h <> [] -> (forall t, h <> 91 :: t) -> scalar_string h ->
  (forall d, code_to_ascii E (std_utf8_decode (std_percent_decode (std_utf8_encode h))) = Some d ->
    Forall (fun p => ~ odd_number E p /\ short_for (int_limit E) p) (address_parts d)) ->
  named_errors (fst (host_parse E h false)) = std_host_reports (code_to_ascii E) h false.
Proof.
  intros N0 B Hs R. destruct h as [|c t]; [congruence|]. assert (C : c <> 91) by (intros ->; now apply (B t)).
  rewrite (bare_log E c t C Hs), (bare_reports _ c t false C). destruct (code_to_ascii E _) as [d|]; [|reflexivity].
  specialize (R d eq_refl). destruct (existsb std_forbidden_domain d); [reflexivity|]. rewrite ends_same.
  - destruct (std_ends_in_number d); [|reflexivity]. apply ipv4_log.
    rewrite parts_eq in *. apply Forall_forall. intros p P. rewrite Forall_forall in R. destruct (R p P). now apply number_code.
  - rewrite <- last_label_eq. rewrite Forall_forall in R. apply R. pose proof (parts_ne d) as Z. destruct (exists_last Z) as (l & x & Q). rewrite Q, last_app. apply in_or_app. right. now left.
Qed.
(** opaque hosts *)
Theorem opaque_host_log E h f : (forall t, h <> 91 :: t) -> fst (host_parse E h true) = firstn 1 (std_host_reports f h true).
Proof.
  intros B. destruct h as [|c t]; [reflexivity|]. assert (C : c <> 91) by (intros ->; now apply (B t)). rewrite (bare_reports _ c t true C).
  unfold host_parse. apply N.eqb_neq in C. rewrite C, fst_wbind. destruct (existsb std_forbidden_host (c :: t)) eqn:F.
  - unfold parse_opaque_host. rewrite (existsb_ext' _ std_forbidden_host) by (intros; apply forbidden_host_eq). rewrite F. reflexivity.
  - rewrite opaque_log by exact F. destruct (snd (parse_opaque_host (c :: t))); cbn [wret fst]; now rewrite app_nil_r.
Qed.
(** IPv6 *)
Theorem v6_host_log E t o f :
  length (fst (host_parse E (91 :: t) o)) = match snd (host_parse E (91 :: t) o) with Ok _ | Err EValue => 0%nat | Err _ => 1%nat end /\
  length (std_host_reports f (91 :: t) o) = match std_host_parse f (91 :: t) o with Some _ => 0%nat | None => 1%nat end.
Proof.
  split.
  - unfold host_parse. change (91 =? 91) with true. cbv iota. destruct (ends_with_char (91 :: t) 93); [|reflexivity].
    rewrite fst_wbind, snd_wbind.
    pose proof (v6_log E (removelast t)) as H. destruct (snd (ipv6_parse E (removelast t))); cbn [wret fst snd]; rewrite app_nil_r; exact H.
  - unfold std_host_reports, std_host_parse. cbn [rev]. destruct (rev t) as [|x r] eqn:Q; [reflexivity|].
    assert (X : forall A (a b : A), match x with 93 => a | _ => b end = if x =? 93 then a else b).
    { intros A a b. destruct x as [|p]; [reflexivity|]. do 7 (destruct p as [p|p|]; try reflexivity). }
    rewrite !X. destruct (x =? 93); [|reflexivity]. rewrite <- named_ipv6_got. destruct (named_ipv6_parse (rev r)); reflexivity.
Qed.

(* ---------- nothing reported ---------- *)
Lemma ipv4_err_log E s e : snd (ipv4_parse E s) = Err e -> fst (ipv4_parse E s) <> [].
Proof.
  assert (A : forall parts e, snd (ipv4_numbers E parts) = Err e -> fst (ipv4_numbers E parts) <> []).
  { clear. induction parts as [|p t IH]; intros e; [discriminate|]. cbn [ipv4_numbers]. destruct (fst (parse_ipv4_number E p) <? 0)%Z; [discriminate|].
    rewrite fst_wbind, snd_wbind. destruct (snd (parse_ipv4_number E p)); [discriminate|]. cbn [wret fst snd app]. rewrite fst_wbind, snd_wbind.
    destruct (snd (ipv4_numbers E t)) as [l|e'] eqn:Q; [discriminate|]. intros _. rewrite app_nil_r. exact (IH e' eq_refl). }
  unfold ipv4_parse. cbv zeta. rewrite fst_wbind, snd_wbind. destruct (last (split 46 s) []); [discriminate|]. cbn [wret fst snd app].
  destruct (4 <? length _)%nat; [discriminate|]. rewrite fst_wbind, snd_wbind. specialize (A (drop_last_empty (split 46 s))).
  destruct (snd (ipv4_numbers E (drop_last_empty (split 46 s)))) as [ns|e']; [|intros _; rewrite app_nil_r; exact (A e' eq_refl)].
  intros H. intros Q. apply app_eq_nil in Q as [_ Q]. revert H Q. rewrite fst_wbind, snd_wbind. destruct (existsb (fun x => 255 <? x) ns).
  - destruct (has_validity E && existsb (repr_fails E) ns); discriminate.
  - cbn [wret fst snd app]. destruct (_ && _); [discriminate|]. destruct (_ <=? _); discriminate.
Qed.
Lemma std_ipv4_err_log s : std_ipv4_parse s = None -> std_ipv4_reports s <> [].
Proof.
  rewrite std_ipv4_parse_eq, std_ipv4_reports_eq. cbv zeta. rewrite <- parts_eq. intros H Q. apply app_eq_nil in Q as [_ Q].
  destruct (4 <? length (address_parts s))%nat eqn:L4; [discriminate|]. apply app_eq_nil in Q as [Q1 Q2].
  destruct (std_ipv4_numbers (address_parts s)) as [ns|] eqn:X.
  - assert (Z : existsb (fun n => 255 <? n) ns = false) by (destruct (existsb _ ns); [discriminate|reflexivity]).
    assert (F : forall x, In x ns -> x <= 255).
    { intros x I. destruct (255 <? x) eqn:Y; [|lia]. assert (existsb (fun n => 255 <? n) ns = true) by (apply existsb_exists; eauto). congruence. }
    assert (R : existsb (fun n => 255 <? n) (removelast ns) = false).
    { destruct (existsb (fun n => 255 <? n) (removelast ns)) eqn:Y; [|reflexivity]. apply existsb_exists in Y as (x & I & Y). apply removelast_in in I. apply F in I. lia. }
    rewrite R in H. destruct (256 ^ (5 - N.of_nat (length ns)) <=? last ns 0) eqn:Y; [|discriminate].
    assert (NN : ns <> []) by (intros ->; apply std_ipv4_numbers_len in X; pose proof (parts_ne s); destruct (address_parts s); [congruence|discriminate]).
    destruct (exists_last NN) as (l & x & ->). rewrite last_app in Y. assert (x <= 255) by (apply F, in_or_app; right; now left).
    pose proof (std_ipv4_numbers_len _ _ X) as LN.
    assert (256 ^ 1 <= 256 ^ (5 - N.of_nat (length (l ++ [x])))) by (apply N.pow_le_mono_r; lia). lia.
  - clear - Q1 X. revert Q1 X. induction (address_parts s) as [|p t IH]; [discriminate|]. cbn [std_ipv4_part_reports std_ipv4_numbers].
    destruct (std_ipv4_number p) as [[n ve]|]; [|discriminate]. intros Q X. apply app_eq_nil in Q as [_ Q]. destruct (std_ipv4_numbers t); [discriminate|auto].
Qed.

Lemma std_ipv4_numbers_agree E s n : limit_ok E -> std_ipv4_parse s = Some n -> Forall (number_agrees E) (address_parts s).
Proof.
  intros HE. rewrite std_ipv4_parse_eq. cbv zeta. rewrite <- parts_eq. destruct (4 <? length (address_parts s))%nat eqn:L4; [discriminate|].
  destruct (std_ipv4_numbers (address_parts s)) as [ns|] eqn:X; [|discriminate].
  destruct (existsb (fun n => 255 <? n) (removelast ns)) eqn:R; [discriminate|]. destruct (256 ^ (5 - N.of_nat (length ns)) <=? last ns 0) eqn:Y; [discriminate|]. intros _.
  assert (B : forall x, In x ns -> x < 10 ^ 10).
  { intros x I. assert (NN : ns <> []) by (intros ->; destruct I). destruct (exists_last NN) as (l & y & Q). rewrite Q in *. rewrite removelast_last, last_app in *.
    apply in_app_or in I as [I|[<-|[]]].
    - destruct (255 <? x) eqn:Z; [|change (10 ^ 10) with 10000000000; lia]. assert (existsb (fun n => 255 <? n) l = true) by (apply existsb_exists; eauto). congruence.
    - pose proof (pow256_le (N.of_nat (length (l ++ [y]))) ltac:(rewrite app_length; cbn [length]; lia)). change (10 ^ 10) with 10000000000. lia. }
  clear - HE X B. revert ns X B. induction (address_parts s) as [|p t IH]; intros ns X B; [constructor|]. cbn [std_ipv4_numbers] in X.
  destruct (std_ipv4_number p) as [[k ve]|] eqn:S; [|discriminate]. destruct (std_ipv4_numbers t) as [l|]; [|discriminate]. injection X as <-. constructor.
  - unfold number_agrees. rewrite S. apply ipv4_number_complete; [exact HE|exact S|]. apply B. now left.
  - apply (IH l eq_refl). intros x I. apply B. now right.
Qed.
(** an IPv4 address that the standard accepts *)
Lemma ipv4_ok_log E s n : limit_ok E -> std_ipv4_parse s = Some n -> (fst (ipv4_parse E s) = [] <-> std_ipv4_reports s = []).
Proof.
  intros HE H. pose proof (ipv4_log E s (std_ipv4_numbers_agree E s n HE H)) as A. pose proof (ipv4_parse_complete E s n HE H) as O.
  split; [intros Q; rewrite Q in A; symmetry; exact A|]. intros Q. rewrite Q in A.
  assert (U : ~ In VUndefined (fst (ipv4_parse E s))).
  { revert O. clear. unfold ipv4_parse. cbv zeta. rewrite fst_wbind, snd_wbind. intros O I. apply in_app_or in I. revert O I.
    assert (N1 : ~ In VUndefined (fst (match last (split 46 s) [] with [] => wlog VIPv4EmptyPart | _ :: _ => wret tt end))) by (destruct (last (split 46 s) []); cbn; intuition discriminate).
    destruct (last (split 46 s) []); cbn [wlog wret fst snd] in *.
    all: destruct (4 <? length (drop_last_empty (split 46 s)))%nat; [discriminate|]; rewrite fst_wbind, snd_wbind.
    all: assert (NU : forall parts, ~ In VUndefined (fst (ipv4_numbers E parts))) by
      (clear; induction parts as [|p t IH]; cbn [ipv4_numbers]; [intros []|]; destruct (fst (parse_ipv4_number E p) <? 0)%Z; [intros [Q|[]]; discriminate|];
       rewrite fst_wbind; intros I; apply in_app_or in I as [I|I]; [destruct (snd (parse_ipv4_number E p)); [destruct I as [I|[]]; discriminate|destruct I]|];
       destruct (snd (parse_ipv4_number E p)); cbn [wlog wret snd] in I; rewrite fst_wbind in I; (apply in_app_or in I as [I|I]; [contradiction|]);
       destruct (snd (ipv4_numbers E t)); destruct I).
    all: specialize (NU (drop_last_empty (split 46 s))); destruct (snd (ipv4_numbers E (drop_last_empty (split 46 s)))) as [ns|]; [|discriminate]; rewrite fst_wbind, snd_wbind.
    all: destruct (existsb (fun x => 255 <? x) ns); [destruct (has_validity E && existsb (repr_fails E) ns); [discriminate|]|]; cbn [wlog wret fst snd].
    all: destruct (_ && _); [discriminate|]; destruct (_ <=? _); [discriminate|]; cbn [wret fst]; intros _ [I|I]; [contradiction|]; apply in_app_or in I as [I|I]; [contradiction|]; cbn in I; intuition discriminate. }
  destruct (fst (ipv4_parse E s)) as [|v l]; [reflexivity|]. exfalso. destruct v; cbn in A; try discriminate A. apply U. now left.
Qed.
Theorem host_log_empty E h o : limit_ok E -> scalar_string h -> (h = [] -> o = true) -> snd (host_parse E h o) <> Err EValue -> regular_host E h o ->
  (fst (host_parse E h o) = [] <-> std_host_reports (code_to_ascii E) h o = []).
Proof.
  intros HE Hs H0 L R. pose proof (host_std E h o HE Hs H0 R) as S. destruct h as [|c t]; [rewrite (H0 eq_refl); split; reflexivity|].
  destruct (N.eq_dec c 91) as [-> |C].
  - destruct (v6_host_log E t o (code_to_ascii E)) as [A B]. unfold code_host in S. rewrite <- S in B.
    set (l1 := fst (host_parse E (91 :: t) o)) in *. set (l2 := std_host_reports (code_to_ascii E) (91 :: t) o) in *. clearbody l1 l2.
    destruct (snd (host_parse E (91 :: t) o)) as [x|[]]; try (now destruct L); destruct l1, l2; cbn [length] in A, B; try discriminate A; try discriminate B; split; congruence.
  - destruct o.
    + rewrite (opaque_host_log E (c :: t) (code_to_ascii E)) by (intros x Q; injection Q; congruence). destruct (std_host_reports _ _ _); cbn [firstn]; split; congruence.
    + rewrite (bare_log E c t C Hs), (bare_reports _ c t false C). unfold regular_host in R. rewrite odd_bare in R by exact C.
      unfold code_host, host_parse, std_host_parse in S. assert (G2 : forall X Y : option host, match c with 91 => X | _ => Y end = Y).
      { intros X Y. apply N.eqb_neq in C. destruct c as [|p]; [reflexivity|]. do 7 (destruct p as [p|p|]; try reflexivity; try discriminate C). }
      rewrite G2 in S. clear G2. replace (c =? 91) with false in S by (symmetry; now apply N.eqb_neq). cbv zeta in S. destruct Hs as [Hp Hs].
      rewrite snd_wbind, utf8_decode_spec, string_percent_decode_spec, svs_free in S by assumption. unfold code_to_ascii in *.
      destruct (snd (domain_to_ascii E false (std_utf8_decode (std_percent_decode (std_utf8_encode (c :: t)))))) as [d|e]; [|split; discriminate].
      rewrite (existsb_ext' _ std_forbidden_domain) in S by (intros; apply forbidden_domain_eq). destruct (existsb std_forbidden_domain d) eqn:FD; [split; discriminate|].
      destruct (std_ends_in_number d) eqn:SE.
      * rewrite (ends_complete E d SE) in *. rewrite snd_wbind in S. destruct (std_ipv4_parse d) as [n|] eqn:SP; [now apply (ipv4_ok_log E d n)|].
        destruct (snd (ipv4_parse E d)) as [m|e] eqn:CP; [discriminate|]. pose proof (ipv4_err_log E d e CP). pose proof (std_ipv4_err_log d SP). split; contradiction.
      * rewrite ends_same, SE; [split; reflexivity|]. intros O. apply R. split; [reflexivity|]. exists d. split; [reflexivity|]. split; [exact FD|]. left. rewrite last_label_eq. auto.
Qed.
