(** Valid hosts of section 3.4 "Host writing" of the URL Standard, and the hosts that
    HostValidator says are valid. Independent of Validators.v. *)
From Coq Require Import NArith Bool Arith List.
From Verif Require Import PyStr Env PyIntProofs SpecText SpecHost SpecPyInt SpecIPv6.
Import ListNotations.
Open Scope N_scope.

(** The answers of an ICU operation that count as success: at most errors of [allowed] *)
Definition icu_within (allowed : list N) (r : icu_result) (d : list N) : Prop :=
  exists e, r = IcuOk e d /\ forall i, N.testbit e i = true -> In i allowed.
(** uidna.h: bits 0-2 are empty label, label too long and domain name too long; 3-5 are
    leading hyphen, trailing hyphen and hyphens in positions 3 and 4. *)
Definition hyphen_bits : list N := [3; 4; 5].
Definition length_bits : list N := [0; 1; 2].
(** domain to ASCII with beStrict true: UseSTD3ASCIIRules 2, CheckBidi 4, CheckJoiners 8,
    nontransitional 16; VerifyDnsLength true *)
Definition strict_to_ascii (E : env) (d a : list N) : Prop :=
  a <> [] /\ icu_within hyphen_bits (icu_to_ascii E 30 d) a.
(** ToUnicode without errors: 2, 4, 8 and nontransitional 32 *)
Definition strict_to_unicode (E : env) (d : list N) : Prop :=
  exists u, icu_within (hyphen_bits ++ length_bits) (icu_to_unicode E 46 d) u.

(** "A string input is a valid domain if": domain to ASCII succeeds, and ToUnicode of its
    result records no errors *)
Definition std_valid_domain (E : env) (d : list N) : Prop :=
  exists a, strict_to_ascii E d a /\ strict_to_unicode E a.
(** what the code asks: ToUnicode of the domain itself *)
Definition code_valid_domain (E : env) (d : list N) : Prop :=
  (exists a, strict_to_ascii E d a) /\ strict_to_unicode E d.

Definition bracketed (h t : list N) : Prop := h = 91 :: t ++ [93].
Definition not_bracketed (h : list N) : Prop := forall t, ~ bracketed h t.

(** the last label is a number for int() *)
Definition code_numeric (E : env) (h : list N) : Prop :=
  std_ends_in_number h = true \/
  exists n, int_number (int_limit E) (uni_decimal E) (uni_space E) (last (address_parts h) []) n.
Definition int_quad (E : env) (h : list N) : Prop :=
  exists p1 p2 p3 p4, h = p1 ++ [46] ++ p2 ++ [46] ++ p3 ++ [46] ++ p4 /\
    (forall p, In p [p1; p2; p3; p4] -> ~ In 46 p /\ int_octet (int_limit E) (uni_decimal E) (uni_space E) p).

(** HostValidator.is_valid *)
Definition code_valid_host (E : env) (h : list N) : Prop :=
  (exists t a, bracketed h t /\ code_v6_text t a) \/
  (not_bracketed h /\ int_quad E h) \/
  (not_bracketed h /\ ~ code_numeric E h /\ code_valid_domain E h).
(** HostValidator.is_valid_opaque_host *)
Definition code_valid_opaque (h : list N) : Prop :=
  (exists t a, bracketed h t /\ code_v6_text t a) \/
  (h <> [] /\ url_units (fun c => std_url_code_point c = true /\ std_forbidden_host c = false) h).

(** valid IPv6-address string: one that the IPv6 parser of the standard accepts (C81) *)
Definition std_address (t : list N) : Prop := exists a, std_v6_text t a.
(** valid IPv4-address string: four shortest decimal numbers 0-255 *)
Definition std_quad (h : list N) : Prop :=
  exists a b c d sa sb sc sd, a < 256 /\ b < 256 /\ c < 256 /\ d < 256 /\
    shortest_in_base 10 a sa /\ shortest_in_base 10 b sb /\ shortest_in_base 10 c sc /\ shortest_in_base 10 d sd /\
    h = sa ++ [46] ++ sb ++ [46] ++ sc ++ [46] ++ sd.
(** valid host string *)
Definition std_valid_host (E : env) (h : list N) : Prop :=
  std_valid_domain E h \/ std_quad h \/ exists t, bracketed h t /\ std_address t.
(** ToUnicode accepts a domain exactly when it accepts its ASCII form *)
Definition unicode_agrees (E : env) : Prop :=
  forall d a, strict_to_ascii E d a -> (strict_to_unicode E d <-> strict_to_unicode E a).
