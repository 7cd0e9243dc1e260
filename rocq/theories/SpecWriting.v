(** "URL writing" (URL Standard, section 4.3): which strings are valid URL strings. A
    grammar, independent of any parser. [strict = true] is the standard's grammar;
    [strict = false] lifts four of its restrictions:
    - a path after an authority may begin with two slashes;
    - what follows a scheme that is not special may look like another scheme;
    - a file URL may have no path, and a host together with a drive letter. *)
From Coq Require Import Ascii String.
From Coq Require Import NArith Bool List.
From Verif Require Import PyStr Env HostModel UrlRecord SpecText SpecHost SpecIPv6 SpecUrl SpecParser.
Import ListNotations.
Open Scope N_scope.

(** URL units: URL code points and percent-encoded bytes *)
Definition unit_string (s : list N) : Prop := url_units (fun c => std_url_code_point c = true) s.
(** URL-path-segment string *)
Definition segment_string (s : list N) : Prop :=
  url_units (fun c => std_url_code_point c = true /\ c <> 47 /\ c <> 63) s.
(** segments separated by '/' *)
Inductive path_string : list N -> Prop :=
| ps_last s : segment_string s -> path_string s
| ps_more s t : segment_string s -> path_string t -> path_string (s ++ 47 :: t).
Definition no_slash (s : list N) : Prop := forall t, s <> 47 :: t.
(** path-relative-URL string, path-absolute-URL string *)
Definition path_relative (s : list N) : Prop := path_string s /\ no_slash s.
Definition path_absolute (s : list N) : Prop := exists p, s = 47 :: p /\ path_relative p.
(** does not begin with a URL-scheme string and ':' *)
Definition scheme_less (s : list N) : Prop := forall sch t, s = sch ++ 58 :: t -> std_scheme sch = false.
(** URL-port string *)
Definition port_string (s : list N) : Prop := forallb std_digit s = true /\ std_decimal s <= 65535.
(** nothing, or [x] and a string of the given kind *)
Definition optional (x : N) (P : list N -> Prop) (s : list N) : Prop := s = [] \/ exists t, s = x :: t /\ P t.

Section Writing.
Variable strict : bool.
(** the domains and IPv4 addresses, and the IPv6 addresses, that may be written *)
Variables (dom v6 : list N -> Prop).

(** valid host string *)
Definition host_string (h : list N) : Prop := dom h \/ exists a, h = 91 :: a ++ [93] /\ v6 a.
(** valid opaque-host string *)
Definition opaque_host_string (h : list N) : Prop :=
  (h <> [] /\ url_units (fun c => std_url_code_point c = true /\ std_forbidden_host c = false) h) \/
  exists a, h = 91 :: a ++ [93] /\ v6 a.

(** path-absolute-URL string after a host *)
Definition path_after_host (s : list N) : Prop :=
  exists p, s = 47 :: p /\ path_string p /\ (strict = true -> no_slash p).
(** "that does not start with '/', followed by a Windows drive letter, followed by '/'" *)
Definition non_windows (s : list N) : Prop :=
  strict = true -> forall d t, s = 47 :: d ++ 47 :: t -> std_any_drive_letter d = false.

Definition scheme_relative_special (s : list N) : Prop :=
  exists h p a, s = [47; 47] ++ h ++ p ++ a /\
    host_string h /\ optional 58 port_string p /\ (a = [] \/ path_after_host a).
Definition scheme_relative_file (s : list N) : Prop :=
  exists h a, s = [47; 47] ++ h ++ a /\
    ((host_string h /\ (a = [] \/ path_after_host a) /\ non_windows a) \/
     (h = [] /\ ((strict = false /\ a = []) \/ path_after_host a))).
Definition scheme_relative (s : list N) : Prop :=
  exists hp a, s = [47; 47] ++ hp ++ a /\
    (hp = [] \/ exists h p, hp = h ++ p /\ opaque_host_string h /\ optional 58 port_string p) /\
    (a = [] \/ path_after_host a).

(** absolute-URL string *)
Definition absolute_url (s : list N) : Prop :=
  exists sch r q, s = sch ++ [58] ++ r ++ q /\ std_scheme sch = true /\ optional 63 unit_string q /\
    ((std_lower sch = $"file" /\ scheme_relative_file r) \/
     (std_special (std_lower sch) /\ std_lower sch <> $"file" /\ scheme_relative_special r) \/
     (~ std_special (std_lower sch) /\
      (scheme_relative r \/ path_absolute r \/ (path_relative r /\ (strict = true -> scheme_less r))))).
(** relative-URL string for a base URL *)
Definition relative_url (b : urlrec) (s : list N) : Prop :=
  exists r q, s = r ++ q /\ optional 63 unit_string q /\
    ((path_relative r /\ scheme_less r) \/
     (scheme b = $"file" /\
      (scheme_relative_file r \/ (path_absolute r /\ (uhost b <> Some (HStr []) -> non_windows r)))) \/
     (std_special (scheme b) /\ scheme b <> $"file" /\ (scheme_relative_special r \/ path_absolute r)) \/
     (~ std_special (scheme b) /\ (scheme_relative r \/ path_absolute r))).
(** valid URL string: with a fragment or without. Against a base with an opaque path only
    a fragment can be resolved. *)
Definition url_string (base : option urlrec) (s : list N) : Prop :=
  exists r f, s = r ++ f /\ optional 35 unit_string f /\
    (absolute_url r \/
     exists b, base = Some b /\ relative_url b r /\ (std_opaque_path b = true -> r = [] /\ f <> [])).
End Writing.

(** No code point that ends a host or is removed from URLs, and none that is forbidden in
    a domain; '%' where escapes are allowed. *)
Definition domain_chars (escapes : bool) (h : list N) : Prop :=
  h <> [] /\ forall c, In c h -> std_forbidden_domain c = true -> escapes = true /\ c = 37.
(** domains that may be written: mapped by "domain to ASCII" to a domain without
    forbidden code points that does not end in a number; and the shortest texts of IPv4
    addresses. (The standard in addition asks that the strict "domain to ASCII" accept the
    domain.) *)
Definition domain_string (to_ascii : list N -> option (list N)) (h : list N) : Prop :=
  domain_chars false h /\
  ((exists d, to_ascii h = Some d /\ existsb std_forbidden_domain d = false /\ std_ends_in_number d = false) \/
   exists sa sb sc sd a b c d, octet_text sa a /\ octet_text sb b /\ octet_text sc c /\ octet_text sd d /\
     h = sa ++ [46] ++ sb ++ [46] ++ sc ++ [46] ++ sd).
Definition address_string (a : list N) : Prop := exists x, std_v6_text a x.
(** what is forbidden in a domain is not mapped away *)
Definition keeps_forbidden (to_ascii : list N -> option (list N)) : Prop :=
  forall x d c, to_ascii x = Some d -> In c x -> std_forbidden_domain c = true -> existsb std_forbidden_domain d = true.
