(** C141: URLValidator.is_valid_url_scheme and the table of registered schemes. *)
From Coq Require Import Ascii String.
From Coq Require Import NArith ZArith Bool Arith Lia List.
From Verif Require Import PyStr PyInt Codec Env HostModel UrlRecord Parser Schemes Validators Lemmas QuoteProofs IPv4Proofs HostProofs ExampleEnv SchemeProofs SpecText SpecHost SpecUrl SpecParser.
Import ListNotations.
Open Scope N_scope.

(** It is true only of URL-scheme strings of the URL Standard. False: str.lower() maps U+212A KELVIN SIGN to k. *)
Definition kelvin_env : env :=
  {| icu_to_ascii := icu_to_ascii ascii_env; icu_to_unicode := icu_to_unicode ascii_env; codec := codec ascii_env;
     uni_decimal := uni_decimal ascii_env; uni_space := uni_space ascii_env; uni_lower := fun c => if c =? 8490 then [107] else [c];
     int_limit := Some 4300; has_validity := false |}.
Theorem C141_scheme_refuted :
  exists s, fst (is_valid_url_scheme kelvin_env s None) = true /\ std_scheme s = false /\ s = 115 :: 8490 :: $"ype".
Proof. exists (115 :: 8490 :: $"ype"). split; [vm_compute; reflexivity|]. split; [vm_compute; reflexivity|reflexivity]. Qed.
Print Assumptions C141_scheme_refuted.
(** For ASCII strings, and for all strings if every other character has a lower case outside ASCII (in
    Unicode all but that one do), it is true exactly of the URL-scheme strings whose lower case is registered. *)
Theorem C141_scheme_partial :
  forall E s v, (forall c, 128 <= c -> exists d, In d (uni_lower E c) /\ 128 <= d) \/ ascii_str s ->
  (fst (is_valid_url_scheme E s v) = true <-> std_scheme s = true /\ In (std_lower s) REGISTERED_SCHEMES).
Proof. exact scheme_iff. Qed.
Print Assumptions C141_scheme_partial.
(** For all strings: replace each character by its lower case. *)
Theorem C141_scheme_exactly :
  forall E s v, fst (is_valid_url_scheme E s v) = true <->
  In (concat (map (fun c => if c <? 128 then [std_lower1 c] else uni_lower E c) s)) REGISTERED_SCHEMES.
Proof. intros E s v. rewrite valid_scheme. unfold py_lower. rewrite flat_map_concat_map. reflexivity. Qed.
Print Assumptions C141_scheme_exactly.
(** The table has only URL-scheme strings in lower case, none of them twice; the special schemes are among them. *)
Theorem C141_table :
  (forall sch, In sch REGISTERED_SCHEMES -> std_scheme sch = true /\ std_lower sch = sch) /\ NoDup REGISTERED_SCHEMES /\
  (forall sch, std_special sch -> In sch REGISTERED_SCHEMES).
Proof. exact (conj registered_std (conj registered_nodup special_registered)). Qed.
Print Assumptions C141_table.
(** Every one of them that is not special makes a valid URL: the scheme and a colon. *)
Theorem C141_usable :
  forall E sch enc v, limit_ok E -> idna_ok E -> normalize_encoding E enc = $"utf-8" -> In sch REGISTERED_SCHEMES -> ~ std_special sch ->
  fst (url_is_valid E (sch ++ [58]) BNone enc v) = Ok true.
Proof. exact registered_url. Qed.
Print Assumptions C141_usable.
Example C141_case :
  fst (is_valid_url_scheme kelvin_env $"SkYpE" None) = true /\ fst (is_valid_url_scheme kelvin_env $"shttp (OBSOLETE)" None) = false /\
  fst (is_valid_url_scheme kelvin_env $"shttp" None) = false /\ fst (is_valid_url_scheme kelvin_env [] None) = false /\
  limit_ok ascii_env /\ idna_ok ascii_env /\ normalize_encoding ascii_env $"UTF8" = $"utf-8" /\ In $"skype" REGISTERED_SCHEMES /\
  fst (url_is_valid ascii_env $"skype:" BNone $"UTF8" None) = Ok true /\ fst (url_is_valid ascii_env $"skyp:" BNone $"UTF8" None) = Ok false.
Proof.
  do 4 (apply conj; [vm_compute; reflexivity|]). apply conj; [exact ascii_env_limit|]. apply conj; [exact ascii_env_idna|]. apply conj; [vm_compute; reflexivity|].
  apply conj; [apply str_in_In; vm_compute; reflexivity|]. apply conj; vm_compute; reflexivity.
Qed.
