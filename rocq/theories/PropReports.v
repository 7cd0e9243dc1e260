(** Property theorems C95-C97: the validation errors that the parser and the host parser
    report, against those that the URL Standard's parsers report, and URLValidator.is_valid.
    The standard's reports are in SpecReports.v and SpecHostReports.v. *)
From Coq Require Import Ascii String.
From Coq Require Import NArith ZArith Bool Arith Lia List.
From Verif Require Import PyStr PyInt Codec Env HostModel UrlRecord Parser Schemes Validators SpecText SpecHost SpecUrl SpecParser.
From Verif Require Import Lemmas IPv4Proofs UrlProps StandardProofs SpecPyInt IntGrammar IPv6Grammar HostStandard.
From Verif Require Import ReportStandard HostReportProofs WholeReports ExampleEnv SpecText SpecHost SpecUrl SpecParser SpecReports SpecHostReports.
Import ListNotations.
Open Scope N_scope.

(** C95 is false: for a file URL whose host is a letter and a vertical bar the code
    reads the letter and the bar twice, and reports the bar once more. Both sides use
    the code's host parser and what that reports. *)
Theorem C95_reports_refuted :
  fst (parse_new ascii_env $"file://C|/x" None UTF8) = [VFileDriveLetterHost; VInvalidURLUnit] /\
  (forall l, std_parse_reports (code_host_log ascii_env) None $"file://C|/x" l <-> l = [VFileDriveLetterHost]).
Proof.
  split; [vm_compute; reflexivity|].
  assert (A : std_parse_reports (code_host_log ascii_env) None $"file://C|/x" [VFileDriveLetterHost]).
  { destruct (reports_conform ascii_env $"file://C|/x" None UTF8) as (l & H & l1 & l2 & -> & D); [vm_compute; reflexivity|intros b; apply port_read_short; vm_compute; discriminate|exact I|].
    assert (Q : fst (parse_new ascii_env $"file://C|/x" None UTF8) = [VFileDriveLetterHost; VInvalidURLUnit]) by (vm_compute; reflexivity).
    rewrite Q in D. destruct l1 as [|x [|y l1]].
    - cbn [app] in D. injection D as <-. exact H.
    - discriminate D.
    - apply (f_equal (@length verr)) in D. cbn [length app] in D. rewrite app_length in D. cbn [length] in D. lia. }
  intros l. split; [|intros ->; exact A]. intros (l1 & H1 & ->). destruct A as (l2 & H2 & Q). rewrite Q. f_equal. now apply (std_reported_det _ _ _ _ _ _ H1).
Qed.
Print Assumptions C95_reports_refuted.

(** Otherwise the two report the same errors in the same order; in the exception the
    code reports one invalid-URL-unit more. Only a port text longer than int()'s limit is
    excluded, where the code raises ValueError (C126); the string may be of any length. *)
Theorem C95_reports_partial :
  forall E s base enc, normalize_encoding E enc = $"utf-8" ->
    (forall b, std_port_read (code_host E) base s b -> short_for (int_limit E) b) -> std_good_base base ->
    file_pipe_host base s = false ->
    forall l, std_parse_reports (code_host_log E) base s l <-> l = fst (parse_new E s base enc).
Proof. exact reports_equal. Qed.
Print Assumptions C95_reports_partial.
Theorem C95_reports_exception :
  forall E s base enc, normalize_encoding E enc = $"utf-8" ->
    (forall b, std_port_read (code_host E) base s b -> short_for (int_limit E) b) -> std_good_base base ->
    file_pipe_host base s = true ->
    exists l1 l2, fst (parse_new E s base enc) = l1 ++ VFileDriveLetterHost :: VInvalidURLUnit :: l2 /\
      forall l, std_parse_reports (code_host_log E) base s l <-> l = l1 ++ VFileDriveLetterHost :: l2.
Proof. exact reports_one_more. Qed.
Print Assumptions C95_reports_exception.
(** With the base as a string, which is parsed and reported on first. *)
Theorem C95_url_reports_partial :
  forall E s base enc, normalize_encoding E enc = $"utf-8" -> good_base_arg None base ->
    (forall b, arg_port_read (code_host E) base s b -> short_for (int_limit E) b) ->
    no_pipe_host (code_host E) base s ->
    forall l, std_url_reports (code_host_log E) s base l <-> l = fst (parse_url E s base enc).
Proof. exact url_reports_equal. Qed.
Print Assumptions C95_url_reports_partial.
Example C95_case :
  fst (parse_new ascii_env $" http:\us:p@h:81/a`\?q	^#%zf " None UTF8) =
    [VInvalidURLUnit; VInvalidURLUnit; VSpecialSchemeMissingSolidus; VSpecialSchemeMissingSolidus; VInvalidCredentials; VInvalidURLUnit;
     VInvalidReverseSolidus; VInvalidURLUnit; VInvalidURLUnit] /\
  file_pipe_host None $" http:\us:p@h:81/a`\?q	^#%zf " = false /\
  file_pipe_host None $" FiLe:/\c|#x" = true /\ file_pipe_host None $"file:///c|/x" = false /\
  file_pipe_host (Some (mkurl $"file" [] [] None None (PList []) None None)) $"//c|" = true.
Proof. repeat split; vm_compute; reflexivity. Qed.

(** C96 is false: in an IPv6 address the code looks at a piece when it is complete, and
    counts the pieces before it looks at them, so the error can have another name. *)
Theorem C96_host_reports_refuted :
  let h := $"[1:2:3:4:5:6:7:8:]" in
  named_errors (fst (host_parse ascii_env h false)) = [VIPv6TooManyPieces] /\ std_host_reports (code_to_ascii ascii_env) h false = [VIPv6InvalidCP].
Proof. split; vm_compute; reflexivity. Qed.
Print Assumptions C96_host_reports_refuted.
(** Domains and IPv4 addresses: the same errors in the same order, when no part is a
    number only for int() ([odd_number], C16) or longer than int()'s limit. *)
Theorem C96_domain_reports_partial :
  forall E h, h <> [] -> (forall t, h <> 91 :: t) -> scalar_string h ->
    (forall d, code_to_ascii E (std_utf8_decode (std_percent_decode (std_utf8_encode h))) = Some d ->
      Forall (fun p => ~ odd_number E p /\ short_for (int_limit E) p) (address_parts d)) ->
    named_errors (fst (host_parse E h false)) = std_host_reports (code_to_ascii E) h false.
Proof. exact domain_log. Qed.
Print Assumptions C96_domain_reports_partial.
(** Opaque hosts: the code reports invalid-URL-unit once where the standard may twice. *)
Theorem C96_opaque_reports_partial :
  forall E h f, (forall t, h <> 91 :: t) -> fst (host_parse E h true) = firstn 1 (std_host_reports f h true).
Proof. exact opaque_host_log. Qed.
Print Assumptions C96_opaque_reports_partial.
(** IPv6 addresses: one error, exactly on failure; the code reports none where it raises
    ValueError (C126). *)
Theorem C96_ipv6_reports_partial :
  forall E t o f,
    length (fst (host_parse E (91 :: t) o)) = match snd (host_parse E (91 :: t) o) with Ok _ | Err EValue => 0%nat | Err _ => 1%nat end /\
    length (std_host_reports f (91 :: t) o) = match std_host_parse f (91 :: t) o with Some _ => 0%nat | None => 1%nat end.
Proof. exact v6_host_log. Qed.
Print Assumptions C96_ipv6_reports_partial.
(** All hosts on which the parsers agree (C77) and no ValueError escapes (C126):
    something is reported by both or by neither. *)
Theorem C96_silent_partial :
  forall E h o, limit_ok E -> scalar_string h -> (h = [] -> o = true) -> snd (host_parse E h o) <> Err EValue -> ~ odd_host E h o ->
    (fst (host_parse E h o) = [] <-> std_host_reports (code_to_ascii E) h o = []).
Proof. exact host_log_empty. Qed.
Print Assumptions C96_silent_partial.
(** the ValueError case: a number of 641 digits in an IPv6 address, limit 640 *)
Example C96_raise :
  let h := $"[1::" ++ repeat 49 641 ++ $".2]" in
  fst (host_parse low_env h false) = [] /\ snd (host_parse low_env h false) = Err EValue /\ length (std_host_reports (code_to_ascii low_env) h false) = 1%nat.
Proof. vm_compute. repeat split; reflexivity. Qed.
Example C96_case :
  fst (host_parse ascii_env $"0x1.256.3." false) = [VIPv4EmptyPart; VIPv4NonDecimal; VIPv4OutOfRange; VUndefined] /\
  std_host_reports (code_to_ascii ascii_env) $"0x1.256.3." false = [VIPv4EmptyPart; VIPv4NonDecimal; VIPv4OutOfRange] /\
  Forall (fun p => ~ odd_number ascii_env p) (address_parts $"0x1.256.3.") /\
  std_host_reports (code_to_ascii ascii_env) $"a b.c" false = [VDomainInvalidCP] /\ fst (host_parse ascii_env $"a b.c" false) = [VDomainInvalidCP] /\
  std_host_reports (code_to_ascii ascii_env) $"a{%4" true = [VInvalidURLUnit; VInvalidURLUnit] /\ fst (host_parse ascii_env $"a{%4" true) = [VInvalidURLUnit] /\
  std_host_reports (code_to_ascii ascii_env) $"[1::2::3]" true = [VIPv6MultipleCompression] /\ std_host_reports (code_to_ascii ascii_env) $"[::1.256.3.4]" true = [VIPv4inIPv6OutOfRange] /\
  std_host_reports (code_to_ascii ascii_env) $"[::1.2.3]" true = [VIPv4inIPv6TooFewParts] /\ std_host_reports (code_to_ascii ascii_env) $"[::1" true = [VIPv6Unclosed].
Proof.
  split; [vm_compute; reflexivity|]. split; [vm_compute; reflexivity|]. split; [|repeat split; vm_compute; reflexivity].
  change (Forall (fun p => ~ odd_number ascii_env p) [$"0x1"; $"256"; $"3"]). repeat constructor; apply not_odd; vm_compute; reflexivity.
Qed.

(** C97 is false: the host 1_0.1 is an IPv4 address only for int(). *)
Theorem C97_valid_refuted :
  fst (url_is_valid ascii_env $"http://1_0.1/" BNone UTF8 None) = Ok true /\
  std_url_parse (std_host_parse (code_to_ascii ascii_env)) $"http://1_0.1/" BNone None.
Proof. split; [vm_compute; reflexivity|]. apply sup_none, (std_exec_parse 100). vm_compute. reflexivity. Qed.
Print Assumptions C97_valid_refuted.
(** Where the hosts are regular (C77), is_valid says yes if and only if the standard's
    parser, its host parser included, reports no validation error, succeeds, the scheme
    is registered, and no port text is longer than int()'s limit. *)
Theorem C97_valid_partial :
  forall E s base enc v, limit_ok E -> normalize_encoding E enc = $"utf-8" -> scalar_string s ->
    good_base_arg None base -> base_parsed (with_validity E true) base ->
    arg_hosts_satisfy (regular_host (with_validity E true)) (std_host_parse (code_to_ascii E)) base s ->
    (fst (url_is_valid E s base enc v) = Ok true <->
     (std_url_reports (std_host_log (code_to_ascii E)) s base [] /\
      exists u, std_url_parse (std_host_parse (code_to_ascii E)) s base (Some u) /\ In (scheme u) REGISTERED_SCHEMES) /\
     forall b, arg_port_read (std_host_parse (code_to_ascii E)) base s b -> short_for (int_limit E) b).
Proof. exact valid_standard. Qed.
Print Assumptions C97_valid_partial.
Example C97_case :
  let hp := std_host_log (code_to_ascii ascii_env) in
  let s := $"http://Ex%41mple.com:81/a?b#c" in
  std_url_reports hp s BNone [] /\ std_url_reports hp $"http:\\a b/" BNone [VSpecialSchemeMissingSolidus; VSpecialSchemeMissingSolidus; VSpecialSchemeMissingSolidus; VDomainInvalidCP] /\
  fst (url_is_valid ascii_env s BNone UTF8 None) = Ok true /\ fst (url_is_valid ascii_env $"http:\\a b/" BNone UTF8 None) = Ok false /\
  arg_hosts_satisfy (regular_host (with_validity ascii_env true)) (std_host_parse (code_to_ascii ascii_env)) BNone s.
Proof.
  cbv zeta. split; [|split; [|split; [vm_compute; reflexivity|split; [vm_compute; reflexivity|]]]].
  - apply sur_none, (reports_computed 100). vm_compute. reflexivity.
  - apply sur_none, (reports_computed 100). vm_compute. reflexivity.
  - apply (hosts_computed 200 _ _ _ _ [($"Ex%41mple.com", false)]); [vm_compute; reflexivity|]. intros h o [H|[]]. injection H as <- <-.
    apply bare_regular; [discriminate|]. intros d H. assert (d = $"example.com") by (vm_compute in H; now injection H as <-). subst d. split; [apply not_odd; vm_compute; reflexivity|].
    intros Q. vm_compute in Q. discriminate Q.
Qed.
