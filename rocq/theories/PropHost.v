(** Property theorems C13-C25 and C66-C71: hosts and validators. *)
From Coq Require Import Ascii String.
From Coq Require Import NArith ZArith Bool Arith Lia List.
From Verif Require Import PyStr PyInt Codec Env HostModel UrlRecord Parser Schemes Validators SpecText SpecHost SpecPyInt SpecIPv6.
From Verif Require Import QuoteProofs PyIntProofs IPv4Proofs IntGrammar IPv6Proofs IPv6Conf IPv6Grammar HostProofs HostStandard ExactProofs ValidatorProofs ExampleEnv.
Import ListNotations.
Open Scope N_scope.

(** C13 *)
Theorem C13_ipv4_round_trip :
  forall E n, limit_ok E -> n < 4294967296 -> snd (ipv4_parse E (ipv4_serialize n)) = Ok n.
Proof. exact ipv4_round_trip. Qed.
Print Assumptions C13_ipv4_round_trip.
Example C13_case : limit_ok ascii_env /\ ipv4_serialize 3232235777 = $"192.168.1.1".
Proof. split; [exact ascii_env_limit | reflexivity]. Qed.

(** C14: false, e.g. for the address 256.256. *)
Theorem C14_ipv4_range_refuted :
  exists s n, snd (ipv4_parse ascii_env s) = Ok n /\ 4294967296 <= n.
Proof. exists $"256.256", 4294967552. split; [vm_compute; reflexivity | discriminate]. Qed.
Print Assumptions C14_ipv4_range_refuted.
(** It holds unless both the last number and an earlier one exceed 255. *)
Theorem C14_ipv4_range_partial :
  forall E s n, snd (ipv4_parse E s) = Ok n ->
    n < 4294967296 \/
    exists ns, snd (ipv4_numbers E (drop_last_empty (split 46 s))) = Ok ns /\ 255 < last ns 0 /\
               exists x, In x (removelast ns) /\ 255 < x.
Proof. exact ipv4_range. Qed.
Print Assumptions C14_ipv4_range_partial.
Example C14_case : snd (ipv4_parse ascii_env $"0x7f.0.511") = Ok 2130706943 /\ 2130706943 < 4294967296.
Proof. split; [vm_compute; reflexivity | reflexivity]. Qed.

(** C15: false; the code accepts more (never less, see the second conjunct of
    the partial result). *)
Theorem C15_ipv4_conforms_refuted :
  exists s n, snd (ipv4_parse ascii_env s) = Ok n /\ std_ipv4_parse s = None.
Proof. exists $"1_0.+2.0x0x3.00o4", 167904004. split; vm_compute; reflexivity. Qed.
Print Assumptions C15_ipv4_conforms_refuted.
(** [odd_number]: a text the standard's number parser rejects although int() reads it
    (C80 says which these are). [odd_address]: the texts of the grammar of C80 with such
    a part, or with a part above 255 before the last. The second conjunct says exactly
    where the code and the standard agree, the third names enough for it. *)
Theorem C15_ipv4_conforms_partial :
  (forall E s n, limit_ok E -> std_ipv4_parse s = Some n -> snd (ipv4_parse E s) = Ok n) /\
  (forall E s, limit_ok E ->
     match std_ipv4_parse s with
     | Some n => snd (ipv4_parse E s) = Ok n
     | None => exists e, snd (ipv4_parse E s) = Err e
     end <-> ~ odd_address E s) /\
  (forall E s, limit_ok E -> Forall (fun p => ~ odd_number E p) (address_parts s) ->
     (forall ns, std_ipv4_numbers (address_parts s) = Some ns ->
        (exists x, In x (removelast ns) /\ 255 < x) -> last ns 0 <= 255) -> ~ odd_address E s).
Proof. exact (conj ipv4_parse_complete (conj address_same not_odd_address)). Qed.
Print Assumptions C15_ipv4_conforms_partial.
Example C15_case : std_ipv4_parse $"0300.0xa8.257" = Some 3232235777 /\ std_ipv4_parse $"1.2.x-3.4" = None
  /\ Forall (fun p => ~ odd_number ascii_env p) (address_parts $"0300.0xa8.257")
  /\ Forall (fun p => ~ odd_number ascii_env p) (address_parts $"1.2.x-3.4")
  /\ std_ipv4_parse $"1.2.3.4.5" = None /\ std_ipv4_parse $"1.256.3.4" = None.
Proof.
  split; [reflexivity|]. split; [reflexivity|]. split; [|split; [|split; reflexivity]].
  - change (Forall (fun p => ~ odd_number ascii_env p) [$"0300"; $"0xa8"; $"257"]). repeat constructor; apply not_odd; vm_compute; reflexivity.
  - change (Forall (fun p => ~ odd_number ascii_env p) [$"1"; $"2"; $"x-3"; $"4"]). repeat constructor; apply not_odd; vm_compute; reflexivity.
Qed.

(** C16: false in one direction only. *)
Theorem C16_ends_in_number_refuted :
  exists s, is_ends_in_a_number ascii_env s = true /\ std_ends_in_number s = false.
Proof. exists $"example.+1". split; vm_compute; reflexivity. Qed.
Print Assumptions C16_ends_in_number_refuted.
(** exactly: the code also says yes when the last label is one of the odd numbers *)
Theorem C16_ends_in_number_partial :
  forall E s, is_ends_in_a_number E s = true <->
    std_ends_in_number s = true \/ odd_number E (last (address_parts s) []).
Proof. exact ends_exact'. Qed.
Print Assumptions C16_ends_in_number_partial.
Example C16_case : std_ends_in_number $"a.0x4." = true /\ ~ odd_number ascii_env (last (address_parts $"a.0x4.") [])
  /\ std_ends_in_number $"a.b4" = false /\ ~ odd_number ascii_env (last (address_parts $"a.b4") []).
Proof. split; [reflexivity|]. split; [apply not_odd; vm_compute; reflexivity|]. split; [reflexivity|]. apply not_odd. vm_compute. reflexivity. Qed.

(** C17 *)
Theorem C17_ipv4_canonical :
  (forall n, dotted_decimal (shortest_in_base 10) n (ipv4_serialize n)) /\
  (forall a b, a < 4294967296 -> b < 4294967296 -> ipv4_serialize a = ipv4_serialize b -> a = b).
Proof. exact (conj ipv4_dotted ipv4_serialize_inj). Qed.
Print Assumptions C17_ipv4_canonical.
Example C17_case : ipv4_serialize 16909060 = $"1.2.3.4" /\ ipv4_serialize 4294967295 = $"255.255.255.255".
Proof. split; reflexivity. Qed.

(** C18 *)
Theorem C18_ipv6_round_trip :
  forall E a, length a = 8%nat -> Forall (fun v => v < 65536) a ->
    snd (ipv6_parse E (ipv6_serialize a)) = Ok a.
Proof. exact ipv6_round_trip. Qed.
Print Assumptions C18_ipv6_round_trip.
Example C18_case : ipv6_serialize [8193; 3512; 0; 0; 1; 0; 0; 1] = $"2001:db8::1:0:0:1".
Proof. reflexivity. Qed.

(** C19: false; a part of an embedded IPv4 address longer than the int/str
    limit raises ValueError. *)
Theorem C19_ipv6_total_refuted :
  exists s, snd (ipv6_parse ascii_env s) = Err EValue.
Proof. exists ($"::" ++ repeat 49 (N.to_nat 4301) ++ $".2.3.4"). vm_compute. reflexivity. Qed.
Print Assumptions C19_ipv6_total_refuted.
(** That is the only exception: inputs no longer than the limit are fine. *)
Theorem C19_ipv6_total_partial :
  forall E s, match snd (ipv6_parse E s) with
              | Ok a => length a = 8%nat /\ Forall (fun v => v < 65536) a
              | Err e => e = EIPv6 \/
                         (e = EValue /\ exists lim, int_limit E = Some lim /\ lim < N.of_nat (length s))
              end.
Proof. exact ipv6_parse_total. Qed.
Print Assumptions C19_ipv6_total_partial.
Example C19_case : snd (ipv6_parse ascii_env $"1::ffff:1.2.3.4") = Ok [1; 0; 0; 0; 0; 65535; 258; 772]
  /\ snd (ipv6_parse ascii_env $"1:2:3:4:5:6:7:8:9") = Err EIPv6.
Proof. split; vm_compute; reflexivity. Qed.

(** C20 *)
Theorem C20_ipv6_serialize_standard :
  forall a, length a = 8%nat -> ipv6_text (shortest_in_base 16) a (ipv6_serialize a).
Proof. exact ipv6_serialize_text. Qed.
Print Assumptions C20_ipv6_serialize_standard.
Example C20_case : ipv6_serialize [0; 0; 0; 1; 0; 0; 0; 43981] = $"::1:0:0:0:abcd"
  /\ ipv6_serialize [1; 0; 2; 0; 3; 0; 4; 0] = $"1:0:2:0:3:0:4:0".
Proof. split; reflexivity. Qed.

(** C21: false in both directions. *)
Theorem C21_ipv6_conforms_refuted :
  (exists s a, snd (ipv6_parse ascii_env s) = Ok a /\ std_ipv6_parse s = None) /\
  (exists s a, snd (ipv6_parse ascii_env s) = Ok a /\ std_ipv6_parse s = None /\ mem 46 s = true) /\
  (exists s a e, snd (ipv6_parse ascii_env s) = Err e /\ std_ipv6_parse s = Some a).
Proof.
  split; [|split].
  - exists $":::1", [0; 0; 0; 0; 0; 0; 0; 1]. split; vm_compute; reflexivity.
  - exists $"::1.2.3.4:5", [0; 0; 0; 0; 0; 258; 772; 5]. repeat split; vm_compute; reflexivity.
  - exists $"1:2:3:4:5:6:7::", [1; 2; 3; 4; 5; 6; 7; 0], EIPv6. split; vm_compute; reflexivity.
Qed.
Print Assumptions C21_ipv6_conforms_refuted.
(** [odd_v6 s] (SpecIPv6.v): the code accepts s and s starts with ":::" or has a '.'
    before a ':', or s is seven hexadecimal pieces and "::". The two parsers agree
    exactly on the other texts. *)
Theorem C21_ipv6_conforms_partial :
  forall E s, limit_ok E ->
    (match std_ipv6_parse s with
     | Some a => snd (ipv6_parse E s) = Ok a
     | None => exists e, snd (ipv6_parse E s) = Err e
     end <-> ~ odd_v6 s).
Proof. exact ipv6_same. Qed.
Print Assumptions C21_ipv6_conforms_partial.
Example C21_case : ~ odd_v6 $"fe80::1" /\ std_ipv6_parse $"fe80::1" = Some [65152; 0; 0; 0; 0; 0; 0; 1]
  /\ ~ odd_v6 $":::1.2.3.4:5:x" /\ odd_v6 $"1:2:3:4:5:6:7::".
Proof.
  split; [|split; [reflexivity|split]].
  - apply (ipv6_same ascii_env); [exact ascii_env_limit|vm_compute; reflexivity].
  - apply (ipv6_same ascii_env); [exact ascii_env_limit|]. vm_compute. eauto.
  - right. exists $"1:2:3:4:5:6:7", [1; 2; 3; 4; 5; 6; 7]. split; [reflexivity|]. split; [|reflexivity].
    do 6 (apply (hexes_more [_] _ [_; _; _]) || apply (hexes_more [_]); [split; [cbn; lia|reflexivity]|]). apply hexes_one. split; [cbn; lia|reflexivity].
Qed.

(** C22 *)
Theorem C22_ipv6_injective :
  forall a b, length a = 8%nat -> length b = 8%nat ->
    Forall (fun v => v < 65536) a -> Forall (fun v => v < 65536) b ->
    ipv6_serialize a = ipv6_serialize b -> a = b.
Proof. exact ipv6_serialize_inj. Qed.
Print Assumptions C22_ipv6_injective.
Example C22_case : ipv6_serialize [0; 0; 1; 0; 0; 0; 0; 0] = $"0:0:1::"
  /\ ipv6_serialize [0; 0; 0; 0; 0; 1; 0; 0] = $"::1:0:0".
Proof. split; reflexivity. Qed.

(** C23: false because of the addresses of C14. *)
Theorem C23_host_round_trip_refuted :
  exists h x, snd (host_parse ascii_env h false) = Ok x /\
              snd (host_parse ascii_env (host_serialize x) false) <> Ok x.
Proof. exists $"256.256", (HIPv4 4294967552). split; vm_compute; [reflexivity|discriminate]. Qed.
Print Assumptions C23_host_round_trip_refuted.
(** It holds for exactly the other hosts, assuming of ICU that its output is ASCII and
    stable and that it keeps dotted-decimal addresses ([idna_ok]). *)
Theorem C23_host_round_trip_partial :
  forall E h ns x, limit_ok E -> idna_ok E -> is_pystr h ->
    snd (host_parse E h ns) = Ok x ->
    (snd (host_parse E (host_serialize x) ns) = Ok x <-> forall n, x = HIPv4 n -> n < 4294967296).
Proof. exact host_back. Qed.
Print Assumptions C23_host_round_trip_partial.
Example C23_case : idna_ok ascii_env /\ snd (host_parse ascii_env $"EX%41mple.com" false) = Ok (HStr $"example.com")
  /\ snd (host_parse ascii_env $"a%41b" true) = Ok (HStr $"a%41b")
  /\ snd (host_parse ascii_env $"0x7F.1" false) = Ok (HIPv4 2130706433)
  /\ snd (host_parse ascii_env $"[::1]" true) = Ok (HIPv6 [0; 0; 0; 0; 0; 0; 0; 1]).
Proof. split; [exact ascii_env_idna|]. repeat split; vm_compute; reflexivity. Qed.

(** C24 *)
Theorem C24_no_forbidden_code_points :
  forall E h ns x, is_pystr h -> snd (host_parse E h ns) = Ok x ->
    match x with
    | HStr s => (forall c, In c s -> std_forbidden_host c = false) /\
                (ns = false -> forall c, In c s -> std_forbidden_domain c = false)
    | HIPv4 n => forall c, In c (host_serialize x) -> std_forbidden_domain c = false
    | HIPv6 a => exists body, host_serialize x = [91] ++ body ++ [93] /\
                   forall c, In c body -> c <> 58 -> std_forbidden_domain c = false
    end.
Proof. exact host_no_forbidden. Qed.
Print Assumptions C24_no_forbidden_code_points.
Example C24_case : snd (host_parse ascii_env ($"a b") true) = Err EHostParse
  /\ snd (host_parse ascii_env ($"a%00b") false) = Err EHostParse
  /\ snd (host_parse ascii_env ([1; 97]) true) = Ok (HStr $"%01a").
Proof. repeat split; vm_compute; reflexivity. Qed.

(** C25 *)
Theorem C25_host_nonempty :
  forall E h ns x, is_pystr h -> h <> [] -> snd (host_parse E h ns) = Ok x -> x <> HStr [].
Proof. exact host_parse_nonempty. Qed.
Print Assumptions C25_host_nonempty.
Example C25_case : snd (host_parse ascii_env $"%" true) = Ok (HStr $"%").
Proof. vm_compute. reflexivity. Qed.

(** C66: [vs_reach] is reachability from a fresh state by prepend, reset and
    += (with a reachable right operand), all returning normally. *)
Theorem C66_validity_state_partial :
  forall s, vs_reach s ->
    (vs_valid s = true <-> vs_count s = 0%nat) /\ (vs_count s = 0%nat <-> vs_types s = []) /\
    length (vs_types s) = vs_count s /\ vs_descs s = vs_count s.
Proof. exact vs_reach_consistent. Qed.
Print Assumptions C66_validity_state_partial.
Example C66_case : vs_reach (vs_iadd (vs_prepend VUndefined vs_fresh) (vs_prepend VHostMissing vs_fresh)).
Proof.
  assert (A : forall v, vs_reach (vs_prepend v vs_fresh)) by (intros v; eapply vs_reach_step; constructor).
  eapply vs_reach_step; [apply A|]. apply vs_step_iadd. apply A.
Qed.

(** A prepend that raises while formatting its description (a number beyond
    the int/str limit) leaves an inconsistent state. *)
Theorem C66_validity_state_raising_refuted :
  exists s, let vs := snd (url_is_valid low_env s BNone UTF8 None) in
    vs_count vs <> length (vs_types vs).
Proof. exists ($"http://0x" ++ repeat 102 (N.to_nat 540) ++ $".1/"). vm_compute. discriminate. Qed.
Print Assumptions C66_validity_state_raising_refuted.

(** C67: false because int() accepts signs, spaces and underscores. *)
Theorem C67_valid_ipv4_refuted :
  exists s, fst (is_valid_ipv4_address ascii_env s None) = true /\ ~ valid_ipv4_string s.
Proof.
  exists $"1.2.3.+4". split; [vm_compute; reflexivity|]. intros V.
  apply (valid_ipv4_split $"1.2.3.+4") in V as (a & b & c & d & _ & _ & _ & _ & Q).
  assert (D : dec_str d = $"+4") by (cbn [map] in Q; change (split 46 $"1.2.3.+4") with [$"1"; $"2"; $"3"; $"+4"] in Q; congruence).
  pose proof (dec_str_no 43 d ltac:(lia)) as H. rewrite D in H. discriminate.
Qed.
Print Assumptions C67_valid_ipv4_refuted.
(** Every valid string is accepted; among the ASCII strings without whitespace, '+',
    '-' and '_' nothing else is. C80 has the exact set. *)
Theorem C67_valid_ipv4_partial :
  (forall E s v, limit_ok E -> valid_ipv4_string s -> fst (is_valid_ipv4_address E s v) = true) /\
  (forall E s v, forallb plain_char s = true ->
     fst (is_valid_ipv4_address E s v) = true -> valid_ipv4_string s).
Proof. exact (conj valid_ipv4_complete valid_ipv4_sound). Qed.
Print Assumptions C67_valid_ipv4_partial.
Example C67_case : valid_ipv4_string $"10.0.255.1" /\ fst (is_valid_ipv4_address ascii_env $"10.0.256.1" None) = false
  /\ fst (is_valid_ipv4_address ascii_env $"10.0.0.01" None) = false.
Proof.
  split; [|split; vm_compute; reflexivity]. apply valid_ipv4_split. exists 10, 0, 255, 1. repeat split.
Qed.

(** C80: the exact sets. [int_address] and [int_octet] (SpecPyInt.v) are the standard's
    definitions with int() literals in place of digit strings. *)
Theorem C80_ipv4_exactly :
  (forall limit udec uspace b, b = 8 \/ b = 10 \/ b = 16 -> forall s z,
     py_int limit udec uspace s b = Some z <-> exists t, seen_by_int udec uspace s t /\ int_literal limit b t z) /\
  (forall E s n, limit_ok E ->
     snd (ipv4_parse E s) = Ok n <-> int_address (int_limit E) (uni_decimal E) (uni_space E) (has_validity E) s n) /\
  (forall E s v, fst (is_valid_ipv4_address E s v) = true <->
     exists p1 p2 p3 p4, s = p1 ++ [46] ++ p2 ++ [46] ++ p3 ++ [46] ++ p4 /\
       (forall p, In p [p1; p2; p3; p4] -> ~ In 46 p /\ int_octet (int_limit E) (uni_decimal E) (uni_space E) p)).
Proof. exact (conj int_grammar (conj address_exact valid_ipv4_exact)). Qed.
Print Assumptions C80_ipv4_exactly.
Example C80_case : int_literal (Some 4300) 16 $" -0x_f_F " (-255) /\
  int_address (Some 4300) (fun _ => None) (fun _ => false) false $"1_0.+2.0x0x3.00o4" 167904004 /\
  (forall z, ~ int_literal None 10 $"1__0" z).
Proof.
  split; [|split].
  - apply (int_literal_sound (Some 4300) (fun _ => None) (fun _ => false) $" -0x_f_F " 16 (-255)); [auto|vm_compute; reflexivity].
  - apply (address_exact ascii_env $"1_0.+2.0x0x3.00o4" 167904004); [vm_compute; discriminate|vm_compute; reflexivity].
  - intros z H. apply (int_literal_complete None 10 $"1__0" z) with (f := fun _ => None) (g := fun _ => false) (s0 := $"1__0") in H; auto.
    vm_compute in H. discriminate H.
Qed.

(** C81: the exact sets for IPv6, with the addresses that the texts denote. *)
Theorem C81_ipv6_exactly :
  (forall E s a, limit_ok E -> snd (ipv6_parse E s) = Ok a <-> code_v6_text s a) /\
  (forall s a, std_ipv6_parse s = Some a <-> std_v6_text s a) /\
  (forall E s a b, limit_ok E -> snd (ipv6_parse E s) = Ok a -> std_ipv6_parse s = Some b -> a = b).
Proof. exact (conj code_v6_exact (conj std_v6_iff ipv6_agree)). Qed.
Print Assumptions C81_ipv6_exactly.
Example C81_case : code_v6_text $"1.2.3.4:a::5.6.7.8:b" [258; 772; 10; 0; 0; 1286; 1800; 11]
  /\ std_v6_text $"1:ABCD::5.6.7.8" [1; 43981; 0; 0; 0; 0; 1286; 1800]
  /\ code_v6_text $":::1" [0; 0; 0; 0; 0; 0; 0; 1]
  /\ (forall a, ~ code_v6_text $"1:2:3:4:5:6:7::" a) /\ (forall a, ~ std_v6_text $"::1:12345" a).
Proof.
  split; [|split; [|split; [|split]]].
  - apply (code_v6_exact ascii_env); [exact ascii_env_limit|vm_compute; reflexivity].
  - apply std_v6_iff. vm_compute. reflexivity.
  - apply (code_v6_exact ascii_env); [exact ascii_env_limit|vm_compute; reflexivity].
  - intros a H. apply (code_v6_exact ascii_env) in H; [|exact ascii_env_limit]. vm_compute in H. discriminate H.
  - intros a H. apply std_v6_iff in H. vm_compute in H. discriminate H.
Qed.

(** C68: also for the excluding set of the opaque-host validator. *)
Theorem C68_url_units :
  (forall s, is_url_units $"%" [] s = None <-> url_units (fun c => std_url_code_point c = true) s) /\
  (forall exc s, mem 37 exc = false -> (forall c, std_hex c <> None -> mem c exc = false) ->
     (is_url_units $"%" exc s = None <->
      url_units (fun c => std_url_code_point c = true /\ ~ In c exc) s)).
Proof. exact (conj url_units_plain url_units_spec). Qed.
Print Assumptions C68_url_units.
Example C68_case : is_url_units $"%" [] $"a%41/b" = None /\ is_url_units $"%" [] $"a%4g" = Some $"%4g"
  /\ is_url_units $"%" [] $"a b" = Some $" ".
Proof. repeat split; reflexivity. Qed.

(** C69 *)
Theorem C69_valid_opaque_host :
  forall E h v, fst (is_valid_opaque_host E h v) = Ok true -> exists x, host_parse E h true = ([], Ok x).
Proof. exact valid_opaque. Qed.
Print Assumptions C69_valid_opaque_host.
Example C69_case : fst (is_valid_opaque_host ascii_env $"a%41b" None) = Ok true
  /\ fst (is_valid_opaque_host ascii_env $"[1::2]" None) = Ok true
  /\ fst (is_valid_opaque_host ascii_env $"a:b" None) = Ok false.
Proof. repeat split; vm_compute; reflexivity. Qed.

(** C70 *)
Theorem C70_valid_ipv6 :
  forall E s v, fst (is_valid_ipv6_address E s v) = Ok true <-> exists a, snd (ipv6_parse E s) = Ok a.
Proof. exact valid_ipv6. Qed.
Print Assumptions C70_valid_ipv6.
Example C70_case : fst (is_valid_ipv6_address ascii_env $"1::8" None) = Ok true
  /\ fst (is_valid_ipv6_address ascii_env $"1::8::" None) = Ok false.
Proof. split; vm_compute; reflexivity. Qed.

(** C71 *)
Theorem C71_scheme_validity :
  (forall E s v, ascii_str s -> (fst (is_valid_url_scheme E s v) = true <-> In (lower s) REGISTERED_SCHEMES)) /\
  (forall E s t v, ascii_str s -> ascii_str t -> lower s = lower t ->
     fst (is_valid_url_scheme E s v) = fst (is_valid_url_scheme E t v)) /\
  (forall E s v, In s REGISTERED_SCHEMES -> fst (is_valid_url_scheme E s v) = true).
Proof. exact (conj scheme_valid (conj scheme_valid_case scheme_valid_registered)). Qed.
Print Assumptions C71_scheme_validity.
Example C71_case : fst (is_valid_url_scheme ascii_env $"HtTpS" None) = true
  /\ fst (is_valid_url_scheme ascii_env $"notascheme" None) = false.
Proof. split; vm_compute; reflexivity. Qed.
