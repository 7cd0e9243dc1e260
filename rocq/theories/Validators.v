(** ValidityState (parse.py:2978-3058), HostValidator (709-955) and
    URLValidator (2866-2975). *)
From Coq Require Import Ascii String.
From Coq Require Import NArith ZArith Bool Arith List.
From Verif Require Import PyStr PyInt Codec Env HostModel UrlRecord Parser Schemes.
Import ListNotations.
Open Scope N_scope.

(** parse.py:3006-3020; of [descriptions] only the length is kept,
    [disable_logging] has no effect on results. *)
Record vstate := mkvs { vs_valid : bool; vs_types : list verr; vs_descs : nat; vs_count : nat }.
Definition vs_fresh : vstate := mkvs true [] 0 0.

(** parse.py:3042-3051 *)
Definition vs_prepend (v : verr) (s : vstate) : vstate :=
  mkvs false (v :: vs_types s) (S (vs_descs s)) (S (vs_count s)).
(** the same when [msg % args] raises *)
Definition vs_prepend_raising (v : verr) (s : vstate) : vstate :=
  mkvs false (v :: vs_types s) (vs_descs s) (vs_count s).
(** parse.py:3053-3058 *)
Definition vs_reset (s : vstate) : vstate := mkvs true [] 0 0.
(** parse.py:3032-3040 [__iadd__]; [__add__] (3020-3030) builds the same state *)
Definition vs_iadd (s o : vstate) : vstate :=
  mkvs (vs_valid s && vs_valid o) (vs_types s ++ vs_types o) (vs_descs s + vs_descs o)
    (vs_count s + vs_count o).
(** the effect of the log calls of a function on the ValidityState it was given *)
Definition vs_log (v : verr) (s : vstate) : vstate :=
  match v with
  | VIPv4OutOfRangeRaised => vs_prepend_raising VIPv4OutOfRange s
  | _ => vs_prepend v s
  end.
Definition vs_apply (l : log) (s : vstate) : vstate := fold_left (fun s v => vs_log v s) l s.

(** [validity = kwargs.get("validity"); if None: ValidityState() else reset()] *)
Definition vs_start (v : option vstate) : vstate :=
  match v with None => vs_fresh | Some s => vs_reset s end.

(** parse.py:2946-2975 [URLValidator.is_valid_url_scheme] *)
Definition is_valid_url_scheme (E : env) (value : str) (v : option vstate) : bool * vstate :=
  let vs := vs_start v in
  let sch := py_lower E value in
  if negb (length sch =? 0)%nat && str_in sch REGISTERED_SCHEMES then (true, vs)
  else (false, vs_prepend VUndefined vs).

(** parse.py:2899-2944 [URLValidator.is_valid] *)
Definition url_is_valid (E : env) (s : str) (base : base_arg) (encoding : str) (v : option vstate)
  : res bool * vstate :=
  let vs := vs_start v in
  let (l, r) := parse_url (with_validity E true) s base encoding in
  let vs := vs_apply l vs in
  match r with
  | Err e => (if is_url_error e then Ok false else Err e, vs)
  | Ok u =>
      let old := vs in
      let (_, vs) := is_valid_url_scheme E (scheme u) (Some vs) in
      let vs := vs_iadd vs old in
      (Ok (vs_count vs =? 0)%nat, vs)
  end.

(** [try: f(...) ; return validity.validation_errors == 0; except X: return False] *)
Definition valid_if_clean {A} (w : W A) (caught : exc -> bool) (vs : vstate) : res bool * vstate :=
  let (l, r) := w in
  let vs := vs_apply l vs in
  match r with
  | Ok _ => (Ok (vs_count vs =? 0)%nat, vs)
  | Err e => (if caught e then Ok false else Err e, vs)
  end.

(** parse.py:778-802 [is_valid_domain] *)
Definition is_valid_domain (E : env) (domain : str) (v : option vstate) : res bool * vstate :=
  let E := with_validity E true in
  valid_if_clean (domain_to_ascii E true domain ~;; domain_to_unicode E true domain)
    is_url_error (vs_start v).

(** parse.py:805-876 [is_valid_ipv4_address]. Without a ValidityState nothing
    is recorded; the returned state is then [None]. *)
Fixpoint ipv4_parts_check (E : env) (parts : list str) : option verr :=
  match parts with
  | [] => None
  | part :: t =>
      let result := parse_ipv4_number E part in
      if (fst result <? 0)%Z then Some VIPv4NonNumeric
      else if snd result then Some VIPv4NonDecimal
      else match e_int E part 10 with
           | Some z => if ((0 <=? z) && (z <=? 255))%Z then ipv4_parts_check E t
                       else Some VIPv4OutOfRange
           | None => Some VIPv4NonNumeric (* unreachable: parse_ipv4_number succeeded in base 10 *)
           end
  end.
Definition ipv4_check (E : env) (address : str) : option verr :=
  let parts := split 46 address in
  if (length (last parts []) =? 0)%nat then Some VIPv4EmptyPart
  else if (4 <? length parts)%nat then Some VIPv4TooManyParts
  else if (length parts <? 4)%nat then Some VUndefined
  else ipv4_parts_check E parts.
Definition is_valid_ipv4_address (E : env) (address : str) (v : option vstate) : bool * option vstate :=
  let v := match v with Some s => Some (vs_reset s) | None => None end in
  match ipv4_check E address with
  | None => (true, v)
  | Some e => (false, match v with Some s => Some (vs_prepend e s) | None => None end)
  end.

(** parse.py:879-902 [is_valid_ipv6_address]: only IPv6AddressParseError is
    caught *)
Definition is_valid_ipv6_address (E : env) (address : str) (v : option vstate) : res bool * vstate :=
  valid_if_clean (ipv6_parse (with_validity E true) address)
    (fun e => match e with EIPv6 => true | _ => false end) (vs_start v).

(** parse.py:905-955 [is_valid_opaque_host] *)
Definition is_valid_opaque_host (E : env) (h : str) (v : option vstate) : res bool * vstate :=
  let vs := vs_start v in
  match h with
  | [] => (Ok false, vs_prepend VUndefined vs)
  | _ =>
      if starts_with $"[" h && ends_with_char h 93
      then is_valid_ipv6_address E (removelast (tl h)) (Some vs)
      else match is_url_units $"%" FORBIDDEN_HOST_CODE_POINT h with
           | None => (Ok true, vs)
           | Some c =>
               (Ok false,
                vs_prepend (match c with
                            | [x] => if mem x FORBIDDEN_HOST_CODE_POINT then VHostInvalidCP
                                     else VInvalidURLUnit
                            | _ => VInvalidURLUnit
                            end) vs)
           end
  end.

(** parse.py:747-775 [HostValidator.is_valid] *)
Definition host_is_valid (E : env) (h : str) (v : option vstate) : res bool * vstate :=
  let vs := vs_start v in
  if starts_with $"[" h && ends_with_char h 93
  then is_valid_ipv6_address E (removelast (tl h)) (Some vs)
  else if is_ends_in_a_number E h
  then let (b, v') := is_valid_ipv4_address E h (Some vs) in
       (Ok b, match v' with Some s => s | None => vs end)
  else is_valid_domain E h (Some vs).
