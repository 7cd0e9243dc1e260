(** What the validators record in a ValidityState: types, descriptions and their number. *)
From Coq Require Import Ascii String.
From Coq Require Import NArith ZArith Bool Arith List.
From Verif Require Import PyStr Env HostModel UrlRecord Parser Schemes Validators Repr Message MsgValidators SpecPyInt SpecText SpecHost SpecUrl SpecParser SpecReports SpecRepr SpecIdna SpecMessages.
Import ListNotations.
Open Scope N_scope.

(** A ValidityState in order: to every type there is a description, which is a sentence [P] has for it;
    the count and the flag are right. *)
Definition in_order (P : verr -> list bit -> Prop) (s : mstate) : Prop :=
  Forall2 (fun ty d => exists v bits m, ty = verr_name v /\ P v bits /\ spells bits m /\ d = headed v m) (ms_types s) (ms_descs s) /\
  ms_count s = length (ms_types s) /\ (ms_valid s = true <-> ms_types s = []).

(** the same without the texts *)
Definition kept (s : mstate) (v : vstate) : Prop :=
  ms_valid s = vs_valid v /\ ms_types s = map verr_name (vs_types v) /\ length (ms_descs s) = vs_descs v /\ ms_count s = vs_count v.
Definition agrees (a : mres bool * mstate) (b : res bool * vstate) : Prop := untold (fst a) = fst b /\ kept (snd a) (snd b).
(** A validator that leaves a ValidityState in order and answers True if and only if it is empty; it can
    raise an exception that is none of the library. *)
Definition verdict (r : mres bool) (s : mstate) : Prop :=
  r = MOk (match ms_types s with [] => true | _ => false end) \/ exists e, r = MErr e None.
Definition says (P : verr -> list bit -> Prop) (a : mres bool * mstate) : Prop := in_order P (snd a) /\ verdict (fst a) (snd a).

(** URLValidator *)
Definition scheme_check (sch : list N) (w : verr) (bits : list bit) : Prop :=
  w = VUndefined /\ ~ In sch REGISTERED_SCHEMES /\ bits = [Txt $"scheme is not registered in the IANA URI Schemes registry: "; Lit (PStr sch)].
Inductive url_check (E : env) (code : N -> list N -> list N) (base : base_arg) (enc s : list N) : verr -> list bit -> Prop :=
| ku_parse v bits : call_message E code base enc s v bits -> url_check E code base enc s v bits
| ku_scheme u : snd (parse_url E s base enc) = Ok u -> ~ In (scheme u) REGISTERED_SCHEMES ->
    url_check E code base enc s VUndefined [Txt $"scheme is not registered in the IANA URI Schemes registry: "; Lit (PStr (scheme u))].

(** IPv4 addresses: four parts *)
Inductive v4_check (E : env) (a : list N) : verr -> list bit -> Prop :=
| k4_end : a = [] \/ (exists b, a = b ++ [46]) ->
    v4_check E a VIPv4EmptyPart [Txt $"IPv4 address ends with a U+002E (.): "; Lit (PStr a)]
| k4_many : (4 < length (std_strict_split 46 a []))%nat ->
    v4_check E a VIPv4TooManyParts [Txt $"IPv4 address does not consist of exactly 4 parts: "; Lit (PStr a)]
| k4_few : (length (std_strict_split 46 a []) < 4)%nat ->
    v4_check E a VUndefined [Txt $"IPv4 address does not consist of exactly 4 parts: "; Lit (PStr a)]
| k4_text p : In p (std_strict_split 46 a []) -> (forall n, ~ read_number E p n) ->
    v4_check E a VIPv4NonNumeric [Txt $"IPv4 address part is not numeric: "; Lit (PStr p); Txt $" in "; Lit (PStr a)]
| k4_radix t n : In (48 :: t) (std_strict_split 46 a []) -> t <> [] -> read_number E (48 :: t) n ->
    v4_check E a VIPv4NonDecimal
      [Txt $"IPv4 address contains numbers expressed using hexadecimal or octal digits: "; Lit (PStr (48 :: t)); Txt $" in "; Lit (PStr a)]
| k4_range p n : In p (std_strict_split 46 a []) -> read_number E p n -> 255 < n ->
    v4_check E a VIPv4OutOfRange [Txt $"IPv4 address part exceeds 255: "; Lit (PStr p); Txt $" in "; Lit (PStr a)].

(** domains, with STD3 rules and DNS lengths (options 30 and 46 of ICU) *)
Definition strictly_counted (errors : N) : N := N.ldiff errors 56.
Inductive domain_check (E : env) (code : N -> list N -> list N) (d : list N) : verr -> list bit -> Prop :=
| kd_ascii_icu errors : icu_to_ascii E 30 d = IcuFail errors ->
    domain_check E code d VDomainToAscii
      [Txt $"Unicode ToASCII failed: domain="; Lit (PStr d); Txt $" errors=0x"; Hex4 errors; Txt $" error_code="; Txt (code 30 d)]
| kd_ascii errors dest : icu_to_ascii E 30 d = IcuOk errors dest -> strictly_counted errors <> 0 ->
    domain_check E code d VDomainToAscii
      [Txt $"Unicode ToASCII records an error: domain="; Lit (PStr d); Txt $" errors="; Txt (std_join $"|" (error_texts (strictly_counted errors)));
       Txt $" (0x"; Hex4 (strictly_counted errors); Txt $")"]
| kd_ascii_empty errors : icu_to_ascii E 30 d = IcuOk errors [] -> strictly_counted errors = 0 ->
    domain_check E code d VDomainToAscii [Txt $"Unicode ToASCII returns the empty string: "; Lit (PStr d)]
| kd_unicode_icu errors : icu_to_unicode E 46 d = IcuFail errors ->
    domain_check E code d VDomainToUnicode
      [Txt $"Unicode ToUnicode failed: domain="; Lit (PStr d); Txt $" errors=0x"; Hex4 errors; Txt $" error_code="; Txt (code 46 d)]
| kd_unicode errors dest : icu_to_unicode E 46 d = IcuOk errors dest -> counted errors <> 0 ->
    domain_check E code d VDomainToUnicode
      [Txt $"Unicode ToUnicode records an error: domain="; Lit (PStr d); Txt $" errors="; Txt (std_join $"|" (error_texts (counted errors)));
       Txt $" (0x"; Hex4 (counted errors); Txt $")"].

(** opaque hosts *)
Inductive opaque_check (h : list N) : verr -> list bit -> Prop :=
| ko_empty : h = [] -> opaque_check h VUndefined [Txt $"opaque host string is empty"]
| ko_v6 a v bits : h = 91 :: a ++ [93] -> v6_message a v bits -> opaque_check h v bits
| ko_forbidden c : In c h -> std_forbidden_host c = true ->
    opaque_check h VHostInvalidCP
      [Txt $"opaque host (in a URL that is not special) contains a forbidden host code point: "; Lit (PStr h)]
| ko_unit c : In c h -> std_url_code_point c = false -> c <> 37 ->
    opaque_check h VInvalidURLUnit
      [Txt $"code point is found that is not a URL unit: U+"; Hex4 c; Txt $" ("; Txt (scalar_value_string [c]); Txt $") in "; Lit (PStr h)]
| ko_percent a p b : h = a ++ 37 :: p ++ b -> std_two_hex (p ++ b) = false -> ~ In 37 p ->
      (length p = 2%nat \/ (length p < 2)%nat /\ (b = [] \/ exists b', b = 37 :: b')) ->
    opaque_check h VInvalidURLUnit [Txt $"incorrect percent encoding is found: "; Lit (PStr (37 :: p)); Txt $" in "; Lit (PStr h)].

(** hosts *)
Inductive host_check (E : env) (code : N -> list N -> list N) (h : list N) : verr -> list bit -> Prop :=
| kh_v6 a v bits : h = 91 :: a ++ [93] -> v6_message a v bits -> host_check E code h v bits
| kh_v4 v bits : v4_check E h v bits -> host_check E code h v bits
| kh_domain v bits : domain_check E code h v bits -> host_check E code h v bits.
