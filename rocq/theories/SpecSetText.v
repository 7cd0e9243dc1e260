(** What the setters of URL log and say. *)
From Coq Require Import Ascii String.
From Coq Require Import NArith ZArith Bool Arith List.
From Verif Require Import PyStr Env UrlRecord Parser UrlApi Repr Message SpecText SpecUrl SpecParser SpecMessages.
Import ListNotations.
Open Scope N_scope.

(** the string that a setter hands to the parser *)
Inductive set_text : setter -> list N -> Prop :=
| st_hash v : v <> [] -> hd_error v <> Some 35 -> set_text (SetHash v) v
| st_hash_sign v : set_text (SetHash (35 :: v)) v
| st_host v : set_text (SetHost v) v
| st_hostname v : set_text (SetHostname v) v
| st_pathname v : set_text (SetPathname v) v
| st_port v : v <> [] -> set_text (SetPort v) v
| st_protocol v : set_text (SetProtocol v) (v ++ [58])
| st_search v : v <> [] -> hd_error v <> Some 63 -> set_text (SetSearch v) v
| st_search_sign v : set_text (SetSearch (63 :: v)) v.

(** the validation errors that a setter can log; hosts are those of the host parser *)
Definition host_error (v : verr) : Prop :=
  In v [VDomainToAscii; VDomainInvalidCP; VHostInvalidCP; VInvalidURLUnit; VUndefined;
        VIPv4EmptyPart; VIPv4TooManyParts; VIPv4NonNumeric; VIPv4NonDecimal; VIPv4OutOfRange;
        VIPv6Unclosed; VIPv6InvalidCompression; VIPv6TooManyPieces; VIPv6MultipleCompression; VIPv6InvalidCP; VIPv6TooFewPieces;
        VIPv4inIPv6TooManyPieces; VIPv4inIPv6InvalidCP; VIPv4inIPv6OutOfRange; VIPv4inIPv6TooFewParts].
Definition may_log (s : setter) (v : verr) : Prop :=
  match s with
  | SetHash _ | SetSearch _ | SetProtocol _ => v = VInvalidURLUnit
  | SetPathname _ => v = VInvalidURLUnit \/ v = VInvalidReverseSolidus
  | SetPort _ => v = VInvalidURLUnit \/ v = VPortOutOfRange
  | SetHostname _ => host_error v \/ v = VHostMissing
  | SetHost _ => host_error v \/ v = VHostMissing \/ v = VPortOutOfRange
  | SetHref _ => True
  | SetUsername _ | SetPassword _ => False
  end.

(** the sentences, which are those about a URL string; what they quote is the string that was set *)
Inductive set_message (E : env) (code : N -> list N -> list N) (s : setter) : verr -> list bit -> Prop :=
| sm_href x v bits : s = SetHref x -> input_message E code None x v bits -> set_message E code s v bits
| sm_tabs x c : set_text s x -> In c x -> std_tab_newline c = true ->
    set_message E code s VInvalidURLUnit [Txt $"remove all ASCII tab or newline from "; Lit (PStr x)]
| sm_part x v bits : set_text s x -> url_message E code None (std_strip_tabs x) v bits -> set_message E code s v bits.

(** a number that cannot be quoted *)
Definition set_unquotable (E : env) (s : setter) : Prop :=
  (exists x, s = SetHref x /\ unquotable E (std_input x)) \/ exists x, set_text s x /\ unquotable E (std_strip_tabs x).

(** one entry of the log *)
Definition set_entry (E : env) (code : N -> list N -> list N) (s : setter) (en : entry) : Prop :=
  exists v, may_log s v /\ tells (set_message E code s) (unquoted false (set_unquotable E s)) en v.

(** The text of the exception: the last message; or, from the protocol setter, one of two that are not
    logged. *)
Definition set_blames (E : env) (code : N -> list N -> list N) (s : setter) (l : list entry) (e : exc) (text : option (list N)) : Prop :=
  blames (set_message E code s) l e text \/
  exists v t bits, s = SetProtocol v /\ e = EURLParse /\ text = Some t /\ scheme_complaint (std_strip_tabs (v ++ [58])) bits /\ spells bits t.
