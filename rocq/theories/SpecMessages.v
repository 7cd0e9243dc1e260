(** What the messages of the URL parser say: for every validation error the text that goes with it,
    with the values quoted in it and when they are the right ones. *)
From Coq Require Import Ascii String.
From Coq Require Import NArith ZArith Bool Arith List.
From Verif Require Import PyStr Env HostModel UrlRecord Parser Repr Message SpecPyInt SpecText SpecHost SpecUrl SpecParser SpecReports SpecRepr SpecIdna.
Import ListNotations.
Open Scope N_scope.

(** the names of the validation errors (URL Standard, section 1.1); "undefined" is the code's own *)
Definition verr_name (v : verr) : list N :=
  match v with
  | VDomainToAscii => $"domain-to-ASCII" | VDomainToUnicode => $"domain-to-Unicode"
  | VDomainInvalidCP => $"domain-invalid-code-point" | VHostInvalidCP => $"host-invalid-code-point"
  | VIPv4EmptyPart => $"IPv4-empty-part" | VIPv4TooManyParts => $"IPv4-too-many-parts"
  | VIPv4NonNumeric => $"IPv4-non-numeric-part" | VIPv4NonDecimal => $"IPv4-non-decimal-part"
  | VIPv4OutOfRange | VIPv4OutOfRangeRaised => $"IPv4-out-of-range-part"
  | VIPv6Unclosed => $"IPv6-unclosed" | VIPv6InvalidCompression => $"IPv6-invalid-compression"
  | VIPv6TooManyPieces => $"IPv6-too-many-pieces" | VIPv6MultipleCompression => $"IPv6-multiple-compression"
  | VIPv6InvalidCP => $"IPv6-invalid-code-point" | VIPv6TooFewPieces => $"IPv6-too-few-pieces"
  | VIPv4inIPv6TooManyPieces => $"IPv4-in-IPv6-too-many-pieces" | VIPv4inIPv6InvalidCP => $"IPv4-in-IPv6-invalid-code-point"
  | VIPv4inIPv6OutOfRange => $"IPv4-in-IPv6-out-of-range-part" | VIPv4inIPv6TooFewParts => $"IPv4-in-IPv6-too-few-parts"
  | VInvalidURLUnit => $"invalid-URL-unit" | VSpecialSchemeMissingSolidus => $"special-scheme-missing-following-solidus"
  | VMissingScheme => $"missing-scheme-non-relative-URL" | VInvalidReverseSolidus => $"invalid-reverse-solidus"
  | VInvalidCredentials => $"invalid-credentials" | VHostMissing => $"host-missing"
  | VPortOutOfRange => $"port-out-of-range" | VPortInvalid => $"port-invalid"
  | VFileDriveLetter => $"file-invalid-Windows-drive-letter" | VFileDriveLetterHost => $"file-invalid-Windows-drive-letter-host"
  | VUndefined => $"undefined"
  end.
(** how a description begins *)
Definition headed (v : verr) (m : list N) : list N :=
  match v with VUndefined => m | _ => verr_name v ++ $": " ++ m end.

(** a text with values in it: literally, as a Python literal, as a decimal number, and as a hexadecimal
    number with at least four digits *)
Inductive bit := Txt (s : list N) | Lit (o : pyobj) | Dec (n : N) | Hex4 (n : N).
Definition decimal_text (d : list N) (n : N) : Prop :=
  d <> [] /\ Forall (fun c => std_digit c = true) d /\ std_decimal d = n /\ (forall t, d = 48 :: t -> t = []).
Definition hex4_text (x : list N) (n : N) : Prop :=
  Forall upper_hex x /\ read_hex (length x) 0 x = Some (n, []) /\ (4 <= length x)%nat /\ ((4 < length x)%nat -> forall t, x <> 48 :: t).
Inductive spells : list bit -> list N -> Prop :=
| sp_nil : spells [] []
| sp_txt s l t : spells l t -> spells (Txt s :: l) (s ++ t)
| sp_lit o q l t : reads q o -> spells l t -> spells (Lit o :: l) (q ++ t)
| sp_dec n d l t : decimal_text d n -> spells l t -> spells (Dec n :: l) (d ++ t)
| sp_hex n x l t : hex4_text x n -> spells l t -> spells (Hex4 n :: l) (x ++ t).

(** U+2019 RIGHT SINGLE QUOTATION MARK *)
Definition quote_s : list N := 8217 :: $"s ".

Definition occurs (p s : list N) : Prop := exists a b, s = a ++ p ++ b.
(** one of the parts of [s] between separators [c] *)
Definition field (c : N) (p s : list N) : Prop :=
  exists a b, s = a ++ p ++ b /\ ~ In c p /\ (a = [] \/ exists a', a = a' ++ [c]) /\ (b = [] \/ exists b', b = c :: b').

(** IPv6 addresses *)
Definition bad_octet (x : list N) : Prop := x = [] \/ (exists c, In c x /\ std_digit c = false) \/ exists c t, x = 48 :: c :: t.
Inductive v6_message (a : list N) : verr -> list bit -> Prop :=
| m6_start t : a = 58 :: t -> (forall r, t <> 58 :: r) ->
    v6_message a VIPv6InvalidCompression [Txt $"IPv6 address begins with improper compression: "; Lit (PStr a)]
| m6_many : v6_message a VIPv6TooManyPieces [Txt $"IPv6 address contains more than 8 pieces: "; Lit (PStr a)]
| m6_twice : occurs $"::" a ->
    v6_message a VIPv6MultipleCompression [Txt $"IPv6 address is compressed in more than one spot: "; Lit (PStr a)]
| m6_ends b : a = b ++ [58] -> v6_message a VIPv6InvalidCP [Txt $"IPv6 address unexpectedly ends: "; Lit (PStr a)]
| m6_piece p : field 58 p a -> ~ In 46 p -> (4 < length p)%nat \/ (exists c, In c p /\ std_hex c = None) ->
    v6_message a VIPv6InvalidCP
      [Txt $"IPv6 address contains a code point that is neither an ASCII hex digit nor a U+003A (:): "; Lit (PStr p); Txt $" in "; Lit (PStr a)]
| m6_few : v6_message a VIPv6TooFewPieces [Txt $"uncompressed IPv6 address contains fewer than 8 pieces: "; Lit (PStr a)]
| m6_v4_many p : field 58 p a -> In 46 p ->
    v6_message a VIPv4inIPv6TooManyPieces
      [Txt $"IPv6 address with IPv4 address syntax: IPv6 address has more than 6 pieces: "; Lit (PStr a)]
| m6_v4_cp p : field 58 p a -> In 46 p ->
    (4 < length (std_strict_split 46 p []))%nat \/ Exists bad_octet (std_strict_split 46 p []) ->
    v6_message a VIPv4inIPv6InvalidCP
      [Txt $"IPv6 address with IPv4 address syntax: IPv4 part is empty or contains a non-ASCII digit / IPv4 part contains a leading 0 / there are too many IPv4 parts: ";
       Lit (PStr p); Txt $" in "; Lit (PStr a)]
| m6_v4_range p : field 58 p a -> In 46 p -> Exists (fun x => 255 < std_decimal x) (std_strict_split 46 p []) ->
    v6_message a VIPv4inIPv6OutOfRange
      [Txt $"IPv6 address with IPv4 address syntax: IPv4 part exceeds 255: "; Lit (PStr p); Txt $" in "; Lit (PStr a)]
| m6_v4_few p : field 58 p a -> In 46 p -> (length (std_strict_split 46 p []) < 4)%nat ->
    v6_message a VIPv4inIPv6TooFewParts
      [Txt $"IPv6 address with IPv4 address syntax: IPv4 address contains too few parts: "; Lit (PStr p); Txt $" in "; Lit (PStr a)].

(** IPv4 addresses; [num]: the numbers that parts are read as *)
Definition int_list (ns : list N) : pyobj := PSeq false (map PInt ns).
Inductive v4_message (num : list N -> N -> Prop) (d : list N) : verr -> list bit -> Prop :=
| m4_empty b : d = b ++ [46] -> v4_message num d VIPv4EmptyPart [Txt $"IPv4 address ends with a U+002E (.): "; Lit (PStr d)]
| m4_many : (4 < length (address_parts d))%nat ->
    v4_message num d VIPv4TooManyParts [Txt $"IPv4 address does not consist of exactly 4 parts: "; Lit (PStr d)]
| m4_text p : In p (address_parts d) -> (forall n, ~ num p n) ->
    v4_message num d VIPv4NonNumeric [Txt $"IPv4 address part is not numeric: "; Lit (PStr p); Txt $" in "; Lit (PStr d)]
| m4_radix t : In (48 :: t) (address_parts d) -> t <> [] -> (exists n, num (48 :: t) n) ->
    v4_message num d VIPv4NonDecimal
      [Txt $"IPv4 address contains numbers expressed using hexadecimal or octal digits: "; Lit (PStr (48 :: t)); Txt $" in "; Lit (PStr d)]
| m4_range ns : Forall2 num (address_parts d) ns -> Exists (fun n => 255 < n) ns ->
    v4_message num d VIPv4OutOfRange [Txt $"IPv4 address part exceeds 255: "; Lit (PStr d); Txt $" ("; Lit (int_list ns); Txt $")"]
| m4_lead ns n : Forall2 num (address_parts d) (ns ++ [n]) -> Exists (fun n => 255 < n) ns -> n <= 255 ->
    v4_message num d VUndefined
      [Txt $"any part but the last part of the IPv4 address is greater than 255: "; Lit (PStr d); Txt $" ("; Lit (int_list (ns ++ [n])); Txt $")"]
| m4_last ns n limit : Forall2 num (address_parts d) (ns ++ [n]) -> limit = 256 ^ (4 - N.of_nat (length ns)) -> limit <= n ->
    v4_message num d VUndefined
      [Txt $"last part of the IPv4 address is greater than or equal to "; Dec limit; Txt $": "; Lit (PStr d); Txt $" ("; Lit (int_list (ns ++ [n])); Txt $")"].

(** hosts. [code]: the error code of ICU's exception, as repr() shows it *)
Definition decoded (h : list N) : list N := std_utf8_decode (std_percent_decode (std_utf8_encode (scalar_value_string h))).
(** errors about hyphens (8, 16, 32) and lengths (1, 2, 4) do not count *)
Definition counted (errors : N) : N := N.ldiff errors 63.
Definition read_number (E : env) : list N -> N -> Prop := int_number (int_limit E) (uni_decimal E) (uni_space E).
Inductive host_message (E : env) (code : N -> list N -> list N) (h : list N) : verr -> list bit -> Prop :=
| mh_open t : h = 91 :: t -> (forall r, t <> r ++ [93]) ->
    host_message E code h VIPv6Unclosed [Txt $"IPv6 address is missing the closing U+005D (]): "; Lit (PStr h)]
| mh_v6 a v bits : h = 91 :: a ++ [93] -> v6_message a v bits -> host_message E code h v bits
| mh_forbidden c : In c h -> std_forbidden_host c = true ->
    host_message E code h VHostInvalidCP
      [Txt $"opaque host (in a URL that is not special) contains a forbidden host code point: "; Lit (PStr h)]
| mh_unit c : In c h -> std_url_code_point c = false -> c <> 37 ->
    host_message E code h VInvalidURLUnit
      [Txt $"code point is found that is not a URL unit: U+"; Hex4 c; Txt $" ("; Txt (scalar_value_string [c]); Txt $") in "; Lit (PStr h)]
| mh_percent a p b : h = a ++ 37 :: p ++ b -> std_two_hex (p ++ b) = false -> ~ In 37 p ->
      (length p = 2%nat \/ (length p < 2)%nat /\ (b = [] \/ exists b', b = 37 :: b')) ->
    host_message E code h VInvalidURLUnit
      [Txt $"incorrect percent encoding is found: "; Lit (PStr (37 :: p)); Txt $" in "; Lit (PStr h)]
| mh_icu errors : icu_to_ascii E 28 (decoded h) = IcuFail errors ->
    host_message E code h VDomainToAscii
      [Txt $"Unicode ToASCII failed: domain="; Lit (PStr (decoded h)); Txt $" errors=0x"; Hex4 errors; Txt $" error_code="; Txt (code 28 (decoded h))]
| mh_idna errors dest : icu_to_ascii E 28 (decoded h) = IcuOk errors dest -> counted errors <> 0 ->
    host_message E code h VDomainToAscii
      [Txt $"Unicode ToASCII records an error: domain="; Lit (PStr (decoded h)); Txt $" errors="; Txt (std_join $"|" (error_texts (counted errors)));
       Txt $" (0x"; Hex4 (counted errors); Txt $")"]
| mh_empty errors : icu_to_ascii E 28 (decoded h) = IcuOk errors [] -> counted errors = 0 ->
    host_message E code h VDomainToAscii [Txt $"Unicode ToASCII returns the empty string: "; Lit (PStr (decoded h))]
| mh_domain errors d c : icu_to_ascii E 28 (decoded h) = IcuOk errors d -> counted errors = 0 -> In c d -> std_forbidden_domain c = true ->
    host_message E code h VDomainInvalidCP [Txt ($"input" ++ quote_s ++ $"host contains a forbidden domain code point: "); Lit (PStr d)]
| mh_v4 errors d v bits : icu_to_ascii E 28 (decoded h) = IcuOk errors d -> counted errors = 0 -> v4_message (read_number E) d v bits ->
    host_message E code h v bits.

(** URLs: [src] is the input without surrounding C0 controls and spaces, tabs and newlines *)
Definition base_lit (base : option urlrec) : pyobj := match base with Some b => PStr (href b) | None => PNone end.
Inductive url_message (E : env) (code : N -> list N -> list N) (base : option urlrec) (src : list N) : verr -> list bit -> Prop :=
| mu_unit p c : nth_error src p = Some c -> std_url_code_point c = false -> c <> 37 ->
    url_message E code base src VInvalidURLUnit
      [Txt $"code point is found that is not a URL unit: U+"; Hex4 c; Txt $" ("; Txt (scalar_value_string [c]); Txt $") in "; Lit (PStr src); Txt $" at position "; Dec (N.of_nat p)]
| mu_percent p : nth_error src p = Some 37 -> std_two_hex (skipn (S p) src) = false ->
    url_message E code base src VInvalidURLUnit
      [Txt $"incorrect percent encoding is found: "; Lit (PStr (firstn 3 (skipn p src))); Txt $" in "; Lit (PStr src); Txt $" at position "; Dec (N.of_nat p)]
| mu_at p : nth_error src p = Some 64 ->
    url_message E code base src VInvalidCredentials
      [Txt $"input includes credentials: "; Lit (PStr src); Txt $" at position "; Dec (N.of_nat p)]
| mu_at_end p : nth_error src p = Some 64 -> (forall c, nth_error src (S p) = Some c -> In c $"/?#\") ->
    url_message E code base src VInvalidCredentials [Txt $"credentials are empty: "; Lit (PStr src)]
| mu_backslash p : nth_error src p = Some 92 ->
    url_message E code base src VInvalidReverseSolidus
      [Txt $"URL has a special scheme and it uses U+005C (\) instead of U+002F (/): "; Lit (PStr src); Txt $" at position "; Dec (N.of_nat p)]
| mu_drive p : std_any_drive_letter (firstn 2 (skipn p src)) = true ->
    url_message E code base src VFileDriveLetter
      [Txt ($"input is a relative-URL string that starts with a Windows drive letter and the base URL" ++ quote_s ++ $"scheme is 'file': ");
       Lit (PStr (firstn 2 (skipn p src))); Txt $" in "; Lit (PStr src); Txt $" at position "; Dec (N.of_nat p)]
| mu_drive_host p : std_any_drive_letter (firstn 2 (skipn p src)) = true ->
    url_message E code base src VFileDriveLetterHost
      [Txt ($"'file:' URL" ++ quote_s ++ $"host is a Windows drive letter: "); Lit (PStr (firstn 2 (skipn p src))); Txt $" in "; Lit (PStr src); Txt $" at position "; Dec (N.of_nat p)]
| mu_no_host : url_message E code base src VHostMissing [Txt $"input has a special scheme, but does not contain a host: "; Lit (PStr src)]
| mu_no_host_port p : nth_error src p = Some 58 ->
    url_message E code base src VHostMissing [Txt $"input does not contain a host: "; Lit (PStr src)]
| mu_scheme : url_message E code base src VMissingScheme
    [Txt $"input is missing a scheme, because it does not begin with an ASCII alpha, and either no base URL was provided or the base URL cannot be used as a base URL because it has an opaque path: input=";
     Lit (PStr src); Txt $" base="; Lit (base_lit base)]
| mu_port_range a d b : src = a ++ d ++ b -> forallb std_digit d = true -> 65535 < std_decimal d ->
    url_message E code base src VPortOutOfRange [Txt ($"input" ++ quote_s ++ $"port is too big: "); Dec (std_decimal d); Txt $" in "; Lit (PStr src)]
| mu_port : url_message E code base src VPortInvalid [Txt ($"input" ++ quote_s ++ $"port is invalid: "); Lit (PStr src)]
| mu_solidus p : nth_error src p = Some 58 -> firstn 2 (skipn (S p) src) <> $"//" ->
    url_message E code base src VSpecialSchemeMissingSolidus
      [Txt ($"input" ++ quote_s ++ $"scheme is not followed by '//': "); Lit (PStr (firstn 2 (skipn (S p) src))); Txt $" in "; Lit (PStr src); Txt $" at position "; Dec (N.of_nat (S p))]
| mu_solidi p c : nth_error src p = Some c -> c = 47 \/ c = 92 ->
    url_message E code base src VSpecialSchemeMissingSolidus
      [Txt ($"input" ++ quote_s ++ $"scheme is not followed by '//': U+"); Hex4 c; Txt $" ("; Txt [c]; Txt $") in "; Lit (PStr src); Txt $" at position "; Dec (N.of_nat p)]
| mu_host h v bits : occurs h src -> host_message E code h v bits -> url_message E code base src v bits.

(** the input as given *)
Inductive input_message (E : env) (code : N -> list N -> list N) (base : option urlrec) (s : list N) : verr -> list bit -> Prop :=
| mi_strip c : c <= 32 -> hd_error s = Some c \/ (exists t, s = t ++ [c]) ->
    input_message E code base s VInvalidURLUnit [Txt $"remove any leading and trailing C0 control or space from "; Lit (PStr s)]
| mi_tabs c : In c (std_rstrip (std_lstrip s)) -> std_tab_newline c = true ->
    input_message E code base s VInvalidURLUnit [Txt $"remove all ASCII tab or newline from "; Lit (PStr (std_rstrip (std_lstrip s)))]
| mi_url v bits : url_message E code base (std_input s) v bits -> input_message E code base s v bits.

(** a host whose IPv4 address has a number above the int/str digit limit: the messages that would
    quote it cannot be made *)
Definition unquotable (E : env) (src : list N) : Prop :=
  exists h errors d ns, occurs h src /\ icu_to_ascii E 28 (decoded h) = IcuOk errors d /\
    Forall2 (read_number E) (address_parts d) ns /\ ~ Forall (printable (int_limit E)) ns.

(** parse_url(s, base, encoding): the messages about a base that is given as a string come first *)
Definition base_of (E : env) (base : base_arg) (enc : list N) (b : option urlrec) : Prop :=
  match base with
  | BNone => b = None
  | BRec u => b = Some u
  | BStr t => exists u, snd (parse_new E t None enc) = Ok u /\ b = Some u
  end.
Inductive call_message (E : env) (code : N -> list N -> list N) (base : base_arg) (enc s : list N) : verr -> list bit -> Prop :=
| mc_base t v bits : base = BStr t -> input_message E code None t v bits -> call_message E code base enc s v bits
| mc_url b v bits : base_of E base enc b -> input_message E code b s v bits -> call_message E code base enc s v bits.
Definition call_unquotable (E : env) (base : base_arg) (s : list N) : Prop :=
  unquotable E (std_input s) \/ exists t, base = BStr t /\ unquotable E (std_input t).

(** the excuse that a number cannot be quoted; with a ValidityState parsing ends there, without one the
    logging package drops the message *)
Definition unquoted (validity : bool) (cannot : Prop) (v : verr) : Prop :=
  cannot /\ (if validity then v = VIPv4OutOfRangeRaised else v = VIPv4OutOfRange \/ v = VUndefined).
(** what the protocol setter can complain about without recording a validation error *)
Definition scheme_complaint (src : list N) (bits : list bit) : Prop :=
  bits = [Txt ($"input" ++ quote_s ++ $"scheme does not begin with an ASCII alpha: "); Lit (PStr src)] \/
  bits = [Txt ($"input" ++ quote_s ++ $"scheme does not end with U+003A (:): "); Lit (PStr src)].

(** without the texts *)
Definition untold {A} (r : mres A) : res A := match r with MOk a => Ok a | MErr e _ => Err e end.

(** A log entry about [v]: its type is the name of [v], and its text is the name and one of the messages
    [P] about [v], unless [U] excuses it. *)
Definition tells (P : verr -> list bit -> Prop) (U : verr -> Prop) (en : entry) (v : verr) : Prop :=
  e_type en = verr_name v /\
  match e_text en with
  | Some t => exists bits m, P v bits /\ spells bits m /\ t = headed v m
  | None => U v
  end.
(** An exception after the log [l]: the text is that of the last log entry without the name. *)
Definition blames (P : verr -> list bit -> Prop) (l : list entry) (e : exc) (text : option (list N)) : Prop :=
  match text with
  | None => is_url_error e = false
  | Some t =>
      is_url_error e = true /\
      exists l0 v bits m, l = l0 ++ [mkentry ERROR (verr_name v) (Some (headed v m))] /\ P v bits /\ spells bits m /\ t = m
  end.
