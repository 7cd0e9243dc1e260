(** The hosts on which int() or the formatting of an int raises ValueError because of
    the int/str digit limit of the interpreter ("Integer string conversion length
    limitation" in the Python documentation). Independent of HostModel.v. *)
From Coq Require Import NArith Bool Arith List.
From Verif Require Import PyStr SpecText SpecHost SpecPyInt SpecIPv6 SpecParser.
Import ListNotations.
Open Scope N_scope.

(** an IPv4 address: all parts are numbers, one of them is too large to be written out,
    and the code writes the numbers out. It does that for the message of an error, and with a
    ValidityState ([noted]) also for the record that a part is above 255. *)
Definition v4_value_error (limit : option N) (udec : N -> option N) (uspace : N -> bool) (noted : bool) (s : list N) : Prop :=
  exists lead final, Forall2 (int_number limit udec uspace) (address_parts s) (lead ++ [final]) /\ (length lead <= 3)%nat /\
    Exists (fun x => ~ printable limit x) (lead ++ [final]) /\
    (noted = true \/ final <= 255 \/ 256 ^ (4 - N.of_nat (length lead)) <= final).

(** two to four decimal numbers without superfluous leading zeros and with dots between
    them, and one of the numbers has too many digits *)
Definition long_quad (limit : option N) (q : list N) : Prop :=
  exists parts, q = join [46] parts /\ (2 <= length parts <= 4)%nat /\
    Forall (fun p => p <> [] /\ forallb std_ascii_digit p = true /\ forall t, p = 48 :: t -> t = []) parts /\
    Exists (fun p => ~ short_for limit p) parts.
(** what may precede an item: items, each followed by a colon, and at most one
    more colon behind a colon. [c]: behind a colon; [z]: "::" has occurred; [n]: the pieces so far *)
Inductive v6_lead : bool -> bool -> list N -> nat -> Prop :=
| lead_nil c z : v6_lead c z [] 0
| lead_item c z s vs t n : v6_item s vs -> v6_lead true z t n -> v6_lead c z (s ++ 58 :: t) (length vs + n)
| lead_short t n : v6_lead true true t n -> v6_lead true false (58 :: t) (S n).
Inductive v6_begin : list N -> nat -> Prop :=
| begin_item s n : v6_lead false false s n -> v6_begin s n
| begin_short s n : v6_lead true true s n -> v6_begin (58 :: 58 :: s) (S n)
| begin_extra s n : v6_lead true true s n -> v6_begin (58 :: 58 :: 58 :: s) (S (S n)).
(** an IPv6 address, read from the left up to such a text *)
Definition v6_value_error (limit : option N) (s : list N) : Prop :=
  exists lead q tail n, s = lead ++ q ++ tail /\ v6_begin lead n /\ (n <= 6)%nat /\ long_quad limit q /\
    (tail = [] \/ exists t, tail = 58 :: t).

(** a host; [f] is the domain-to-ASCII operation *)
Definition host_value_error (limit : option N) (udec : N -> option N) (uspace : N -> bool) (noted : bool)
    (f : list N -> option (list N)) (h : list N) (o : bool) : Prop :=
  (exists t, h = 91 :: t ++ [93] /\ v6_value_error limit t) \/
  (o = false /\ h <> [] /\ (forall t, h <> 91 :: t) /\ exists d, f (std_utf8_decode (std_percent_decode (std_utf8_encode h))) = Some d /\
     existsb std_forbidden_domain d = false /\ v4_value_error limit udec uspace noted d).
