(** The validators of Validators.v with the texts they record (parse.py:709-955, 2866-3058). *)
From Coq Require Import Ascii String.
From Coq Require Import NArith ZArith Bool Arith List.
From Verif Require Import PyStr PyInt Codec Env HostModel UrlRecord Parser Schemes Repr Idna Message MsgHost MsgParser.
Import ListNotations.
Open Scope N_scope.

(** parse.py:3006-3020; [disable_logging] has no effect on results *)
Record mstate := mkms { ms_valid : bool; ms_types : list str; ms_descs : list str; ms_count : nat }.
Definition ms_fresh : mstate := mkms true [] [] 0.
(** parse.py:3053-3058 *)
Definition ms_reset (s : mstate) : mstate := mkms true [] [] 0.
(** parse.py:3042-3051: what one log call leaves behind *)
Definition ms_log (en : entry) (s : mstate) : mstate :=
  match e_text en with
  | Some t => mkms false (e_type en :: ms_types s) (t :: ms_descs s) (S (ms_count s))
  | None => mkms false (e_type en :: ms_types s) (ms_descs s) (ms_count s)
  end.
Definition ms_apply (l : list entry) (s : mstate) : mstate := fold_left (fun s en => ms_log en s) l s.
(** parse.py:3032-3040 *)
Definition ms_iadd (s o : mstate) : mstate :=
  mkms (ms_valid s && ms_valid o) (ms_types s ++ ms_types o) (ms_descs s ++ ms_descs o) (ms_count s + ms_count o).
(** [validity = kwargs.get("validity"); if None: ValidityState() else reset()] *)
Definition ms_start (v : option mstate) : mstate :=
  match v with None => ms_fresh | Some s => ms_reset s end.

(** a call with a ValidityState *)
Definition checking (X : menv) : menv :=
  {| m_env := with_validity (m_env X) true; m_print := m_print X; m_icu_code := m_icu_code X |}.
(** [validity.prepend(msg, args...)] and [return False] *)
Definition ms_refuse (X : menv) (msg : str) (args : list pyobj) (s : mstate) : mres bool * mstate :=
  let (l, r) := noted (checking X) INFO msg args in
  (match r with MOk _ => MOk false | MErr e t => MErr e t end, ms_apply l s).

Section Validators.
Context (X : menv).
Local Notation E := (m_env X).

(** parse.py:2946-2975 *)
Definition m_is_valid_url_scheme (value : str) (v : option mstate) : mres bool * mstate :=
  let st := ms_start v in
  let sch := py_lower E value in
  if negb (length sch =? 0)%nat && str_in sch REGISTERED_SCHEMES then (MOk true, st)
  else ms_refuse X $"scheme is not registered in the IANA URI Schemes registry: %r" [PStr sch] st.

(** parse.py:2899-2944 *)
Definition m_url_is_valid (s : str) (base : base_arg) (encoding : str) (v : option mstate) : mres bool * mstate :=
  let st := ms_start v in
  let (l, r) := m_parse_url (checking X) s base encoding in
  let st := ms_apply l st in
  match r with
  | MErr e t => (if is_url_error e then MOk false else MErr e t, st)
  | MOk u =>
      let old := st in
      let (r, st) := m_is_valid_url_scheme (scheme u) (Some st) in
      match r with
      | MErr e t => (MErr e t, st)
      | MOk _ => let st := ms_iadd st old in (MOk (ms_count st =? 0)%nat, st)
      end
  end.

(** [try: f(...) ; return validity.validation_errors == 0; except X: return False] *)
Definition m_valid_if_clean {A} (w : MW A) (caught : exc -> bool) (st : mstate) : mres bool * mstate :=
  let (l, r) := w in
  let st := ms_apply l st in
  match r with
  | MOk _ => (MOk (ms_count st =? 0)%nat, st)
  | MErr e t => (if caught e then MOk false else MErr e t, st)
  end.

(** parse.py:778-802 *)
Definition m_is_valid_domain (domain : str) (v : option mstate) : mres bool * mstate :=
  m_valid_if_clean (m_domain_to_ascii (checking X) true domain >w m_domain_to_unicode (checking X) true domain)
    is_url_error (ms_start v).

(** parse.py:805-876: the message and its arguments, or [None] for a valid address *)
Fixpoint m_ipv4_parts_check (address : str) (parts : list str) : option (str * list pyobj) :=
  match parts with
  | [] => None
  | part :: t =>
      let result := parse_ipv4_number E part in
      if (fst result <? 0)%Z
      then Some ($"IPv4-non-numeric-part: IPv4 address part is not numeric: %r in %r", [PStr part; PStr address])
      else if snd result
      then Some ($"IPv4-non-decimal-part: IPv4 address contains numbers expressed using hexadecimal or octal digits: %r in %r",
                 [PStr part; PStr address])
      else match e_int E part 10 with
           | Some z => if ((0 <=? z) && (z <=? 255))%Z then m_ipv4_parts_check address t
                       else Some ($"IPv4-out-of-range-part: IPv4 address part exceeds 255: %r in %r", [PStr part; PStr address])
           | None => Some ($"IPv4-non-numeric-part: IPv4 address part is not numeric: %r in %r", [PStr part; PStr address])
           end
  end.
Definition m_ipv4_check (address : str) : option (str * list pyobj) :=
  let parts := split 46 address in
  if (length (last parts []) =? 0)%nat
  then Some ($"IPv4-empty-part: IPv4 address ends with a U+002E (.): %r", [PStr address])
  else if (4 <? length parts)%nat
  then Some ($"IPv4-too-many-parts: IPv4 address does not consist of exactly 4 parts: %r", [PStr address])
  else if (length parts <? 4)%nat
  then Some ($"IPv4 address does not consist of exactly 4 parts: %r", [PStr address])
  else m_ipv4_parts_check address parts.
(** Without a ValidityState nothing is recorded. *)
Definition m_is_valid_ipv4_address (address : str) (v : option mstate) : mres bool * option mstate :=
  let v := match v with Some s => Some (ms_reset s) | None => None end in
  match m_ipv4_check address with
  | None => (MOk true, v)
  | Some (msg, args) =>
      match v with
      | Some s => let (r, s) := ms_refuse X msg args s in (r, Some s)
      | None => (MOk false, None)
      end
  end.

(** parse.py:879-902 *)
Definition m_is_valid_ipv6_address (address : str) (v : option mstate) : mres bool * mstate :=
  m_valid_if_clean (m_ipv6_parse (checking X) address)
    (fun e => match e with EIPv6 => true | _ => false end) (ms_start v).

(** parse.py:905-955 *)
Definition m_is_valid_opaque_host (h : str) (v : option mstate) : mres bool * mstate :=
  let st := ms_start v in
  match h with
  | [] => ms_refuse X $"opaque host string is empty" [] st
  | _ =>
      if starts_with $"[" h && ends_with_char h 93
      then m_is_valid_ipv6_address (removelast (tl h)) (Some st)
      else match is_url_units $"%" FORBIDDEN_HOST_CODE_POINT h with
           | None => (MOk true, st)
           | Some c =>
               if match c with [x] => mem x FORBIDDEN_HOST_CODE_POINT | _ => false end
               then ms_refuse X $"host-invalid-code-point: opaque host (in a URL that is not special) contains a forbidden host code point: %r"
                      [PStr h] st
               else if (length c =? 1)%nat && negb (str_eqb c $"%")
               then ms_refuse X $"invalid-URL-unit: code point is found that is not a URL unit: U+%04X (%s) in %r"
                      [PInt (hd 0 c); PStr (shown_char (hd 0 c)); PStr h] st
               else ms_refuse X $"invalid-URL-unit: incorrect percent encoding is found: %r in %r" [PStr c; PStr h] st
           end
  end.

(** parse.py:747-775 *)
Definition m_host_is_valid (h : str) (v : option mstate) : mres bool * mstate :=
  let st := ms_start v in
  if starts_with $"[" h && ends_with_char h 93
  then m_is_valid_ipv6_address (removelast (tl h)) (Some st)
  else if is_ends_in_a_number E h
  then let (b, v') := m_is_valid_ipv4_address h (Some st) in
       (b, match v' with Some s => s | None => st end)
  else m_is_valid_domain h (Some st).
End Validators.
