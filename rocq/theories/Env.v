(** Environment (everything outside /repo), exceptions, validation errors and
    the two effect monads used by the model. *)
From Coq Require Import NArith ZArith Bool List.
From Verif Require Import PyStr PyInt.
Import ListNotations.
Open Scope N_scope.

(** Result of ICU's IDNA::nameToASCII / nameToUnicode. *)
Inductive icu_result :=
| IcuOk (errors : N) (dest : str)      (* info.get_errors(), str(dest) *)
| IcuFail (errors : N).                (* icu.ICUError raised *)

Record env := {
  (** icu.IDNA.create_uts46_instance(options).name_to_ascii / name_to_unicode *)
  icu_to_ascii : N -> str -> icu_result;
  icu_to_unicode : N -> str -> icu_result;
  (** stateless legacy codecs by lower-cased name *)
  codec : str -> N -> option (list N);
  (** Unicode tables used by int(), for code points >= 127 *)
  uni_decimal : N -> option N;
  uni_space : N -> bool;
  (** str.lower() of one code point >= 128 *)
  uni_lower : N -> str;
  (** sys.get_int_max_str_digits(): None if absent or 0 *)
  int_limit : option N;
  (** does the caller pass validity=...? (then messages are formatted eagerly,
      parse.py:563-570, 3050) *)
  has_validity : bool
}.

Definition with_validity (E : env) (b : bool) : env :=
  {| icu_to_ascii := icu_to_ascii E; icu_to_unicode := icu_to_unicode E; codec := codec E;
     uni_decimal := uni_decimal E; uni_space := uni_space E; uni_lower := uni_lower E;
     int_limit := int_limit E; has_validity := b |}.

(** int(s, base) in environment [E] *)
Definition e_int (E : env) (s : str) (base : N) : option Z :=
  py_int (int_limit E) (uni_decimal E) (uni_space E) s base.

(** repr(n) raises ValueError (int/str conversion limit) *)
Definition repr_fails (E : env) (n : N) : bool :=
  match int_limit E with
  | Some l => l <? N.of_nat (length (digits 10 n))
  | None => false
  end.

(** Exceptions. The first five are error.py:16-54; the others are plain
    Python exceptions. [EFuel] is not Python: the model's loop fuel ran out. *)
Inductive exc :=
| EURLParse | EHostParse | EIDNA | EIPv4 | EIPv6
| EValue | EType | EAttr | EIndex | EAssert | ENotImpl | EUnicode | EFuel.

(** isinstance(e, URLParseError) *)
Definition is_url_error (e : exc) : bool :=
  match e with EURLParse | EHostParse | EIDNA | EIPv4 | EIPv6 => true | _ => false end.

Inductive res (A : Type) := Ok (a : A) | Err (e : exc).
Arguments Ok {A} _. Arguments Err {A} _.

(** Validation error types, i.e. what VALIDATION_ERROR_TYPE_RE extracts from the
    message (parse.py:63, 3046-3049). *)
Inductive verr :=
| VDomainToAscii | VDomainToUnicode | VDomainInvalidCP | VHostInvalidCP
| VIPv4EmptyPart | VIPv4TooManyParts | VIPv4NonNumeric | VIPv4NonDecimal | VIPv4OutOfRange
| VIPv6Unclosed | VIPv6InvalidCompression | VIPv6TooManyPieces | VIPv6MultipleCompression
| VIPv6InvalidCP | VIPv6TooFewPieces
| VIPv4inIPv6TooManyPieces | VIPv4inIPv6InvalidCP | VIPv4inIPv6OutOfRange | VIPv4inIPv6TooFewParts
| VInvalidURLUnit | VSpecialSchemeMissingSolidus | VMissingScheme | VInvalidReverseSolidus
| VInvalidCredentials | VHostMissing | VPortOutOfRange | VPortInvalid
| VFileDriveLetter | VFileDriveLetterHost | VUndefined
(** "IPv4-out-of-range-part" whose description could not be formatted:
    ValidityState.prepend raised after inserting the error type (parse.py:3042-3051) *)
| VIPv4OutOfRangeRaised.

Definition log := list verr.   (* in order of occurrence; error_types is its reverse *)

(** Writer + exceptions: functions that log but do not touch a URL record. *)
Definition W (A : Type) := (log * res A)%type.
Definition wret {A} (a : A) : W A := ([], Ok a).
Definition wraise {A} (e : exc) : W A := ([], Err e).
Definition wlog (v : verr) : W unit := ([v], Ok tt).
Definition wbind {A B} (m : W A) (f : A -> W B) : W B :=
  match m with
  | (l, Ok a) => let (l', r) := f a in (l ++ l', r)
  | (l, Err e) => (l, Err e)
  end.
Notation "x <~ m ;; k" := (wbind m (fun x => k)) (at level 61, m at next level, right associativity).
Notation "m ~;; k" := (wbind m (fun _ => k)) (at level 61, right associativity).
(** log an error and raise *)
Definition wfail {A} (v : verr) (e : exc) : W A := ([v], Err e).
