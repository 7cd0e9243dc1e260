(** IDNA once more (parse.py:958-1165), with the class attribute [_cache], the conversion of
    the domain to UTF-16 and the names of errors. HostModel.v has the functions without
    these. *)
From Coq Require Import Ascii String.
From Coq Require Import NArith ZArith Bool Arith List.
From Verif Require Import PyStr PyInt Codec Env HostModel.
Import ListNotations.
Open Scope N_scope.

(** parse.py:977-993, with the values of uidna.h *)
Definition ERROR_TO_STRING : list (N * str) :=
  [(1, $"UIDNA_ERROR_EMPTY_LABEL"); (2, $"UIDNA_ERROR_LABEL_TOO_LONG"); (4, $"UIDNA_ERROR_DOMAIN_NAME_TOO_LONG");
   (8, $"UIDNA_ERROR_LEADING_HYPHEN"); (16, $"UIDNA_ERROR_TRAILING_HYPHEN"); (32, $"UIDNA_ERROR_HYPHEN_3_4");
   (64, $"UIDNA_ERROR_LEADING_COMBINING_MARK"); (128, $"UIDNA_ERROR_DISALLOWED"); (256, $"UIDNA_ERROR_PUNYCODE");
   (512, $"UIDNA_ERROR_LABEL_HAS_DOT"); (1024, $"UIDNA_ERROR_INVALID_ACE_LABEL"); (2048, $"UIDNA_ERROR_BIDI");
   (4096, $"UIDNA_ERROR_CONTEXTJ"); (8192, $"UIDNA_ERROR_CONTEXTO_PUNCTUATION"); (16384, $"UIDNA_ERROR_CONTEXTO_DIGITS")].

(** parse.py:1006-1016 [_errors_to_string]; [hex(n)] is "0x" and the digits *)
Fixpoint error_names (table : list (N * str)) (names : list str) (errors : N) : list str * N :=
  match table with
  | [] => (names, errors)
  | (value, name) :: t =>
      if negb (N.land value errors =? 0)
      then error_names t (names ++ [name]) (N.ldiff errors value)
      else error_names t names errors
  end.
Definition errors_to_string (errors : N) : str :=
  let (names, errors) := error_names ERROR_TO_STRING [] errors in
  join $"|" (if negb (errors =? 0) then names ++ [$"0x" ++ hex_str errors] else names).

(** ICU: making an instance ([None]: ICUError), and its two functions on UTF-16 text *)
Record icu := {
  instance : Type;
  create_uts46_instance : N -> option instance;
  name_to_ascii : instance -> list N -> icu_result;
  name_to_unicode : instance -> list N -> icu_result
}.
(** [icu.UnicodeString(text, length)]: [length] code units of the text in UTF-16 *)
Definition unicode_string (s : str) (length : nat) : list N := firstn length (to_utf16 s).

(** a dict with int keys *)
Fixpoint dict_get {A} (d : list (N * A)) (k : N) : option A :=
  match d with [] => None | (k', v) :: t => if k' =? k then Some v else dict_get t k end.
Fixpoint dict_put {A} (d : list (N * A)) (k : N) (v : A) : list (N * A) :=
  match d with [] => [(k, v)] | (k', v') :: t => if k' =? k then (k', v) :: t else (k', v') :: dict_put t k v end.

(** parse.py:997-1004 [_create_instance]: the instance and the cache afterwards *)
Definition create_instance (X : icu) (cache : list (N * instance X)) (options : N) : option (instance X) * list (N * instance X) :=
  match dict_get cache options with
  | Some uts46 => (Some uts46, cache)
  | None =>
      match create_uts46_instance X options with
      | Some uts46 => (Some uts46, dict_put cache options uts46)
      | None => (None, cache)
      end
  end.

(** parse.py:1018-1100 *)
Definition idna_to_ascii (X : icu) (cache : list (N * instance X)) (be_strict : bool) (domain : str) : W str * list (N * instance X) :=
  let options := N.lor (N.lor 4 8) 16 in
  let allowed := CHECK_HYPHENS_ERRORS in
  let (options, allowed) := if be_strict then (N.lor options 2, allowed) else (options, N.lor allowed VERIFY_DNS_LENGTH_ERRORS) in
  let (uts46, cache) := create_instance X cache options in
  (match uts46 with
   | None => wfail VDomainToAscii EIDNA
   | Some i =>
       match name_to_ascii X i (unicode_string domain (u16len domain)) with
       | IcuFail _ => wfail VDomainToAscii EIDNA
       | IcuOk errors dest =>
           if negb (N.ldiff errors allowed =? 0) then wfail VDomainToAscii EHostParse
           else if (length dest =? 0)%nat then wfail VDomainToAscii EHostParse else wret dest
       end
   end, cache).

(** parse.py:1103-1165 *)
Definition idna_to_unicode (X : icu) (cache : list (N * instance X)) (be_strict : bool) (domain : str) : W str * list (N * instance X) :=
  let options := N.lor (N.lor 4 8) 32 in
  let allowed := N.lor CHECK_HYPHENS_ERRORS VERIFY_DNS_LENGTH_ERRORS in
  let options := if be_strict then N.lor options 2 else options in
  let (uts46, cache) := create_instance X cache options in
  (match uts46 with
   | None => wfail VDomainToUnicode EIDNA
   | Some i =>
       match name_to_unicode X i (unicode_string domain (u16len domain)) with
       | IcuFail _ => wfail VDomainToUnicode EIDNA
       | IcuOk errors dest =>
           (if negb (N.ldiff errors allowed =? 0) then wlog VDomainToUnicode else wret tt) ~;; wret dest
       end
   end, cache).

(** a process: calls one after the other *)
Inductive idna_call := ToAscii (be_strict : bool) (domain : str) | ToUnicode (be_strict : bool) (domain : str).
Definition do_idna (X : icu) (cache : list (N * instance X)) (c : idna_call) : W str * list (N * instance X) :=
  match c with ToAscii b d => idna_to_ascii X cache b d | ToUnicode b d => idna_to_unicode X cache b d end.
Fixpoint idna_calls (X : icu) (cache : list (N * instance X)) (cs : list idna_call) : list (W str) * list (N * instance X) :=
  match cs with
  | [] => ([], cache)
  | c :: t => let (r, cache) := do_idna X cache c in let (rs, cache) := idna_calls X cache t in (r :: rs, cache)
  end.
