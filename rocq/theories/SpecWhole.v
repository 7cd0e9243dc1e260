(** The hosts that a setter of the URL Standard hands to the host parser, the port texts
    that it reads, and where port 0 matters to it. *)
From Coq Require Import Ascii String.
From Coq Require Import NArith ZArith Bool Arith List.
From Verif Require Import PyStr HostModel UrlRecord Parser SearchParams UrlApi SpecText SpecHost SpecUrl SpecParser SpecApi SpecSetters.
Import ListNotations.
Open Scope N_scope.

(** as [std_asks] in SpecParser.v, with state override *)
Inductive override_asks (hp : list N -> bool -> option host) (hostname : bool) (inp : list N) : cfg -> list N -> bool -> Prop :=
| oa_here k u : (k_ptr k <= length inp)%nat ->
    override_step (fun _ _ => None) hostname inp k = SFail u -> override_step (fun _ _ => Some (HStr [])) hostname inp k <> SFail u ->
    override_asks hp hostname inp k (k_buf k) (negb (std_is_special (k_url k)))
| oa_later k k' h o : (k_ptr k <= length inp)%nat -> override_step hp hostname inp k = SGo k' ->
    override_asks hp hostname inp k' h o -> override_asks hp hostname inp k h o.
(** the port texts that it reads: a non-empty buffer when the digits end *)
Definition override_port_ends (inp : list N) (k : cfg) : bool :=
  match k_state k with
  | S_port =>
      negb (length (k_buf k) =? 0)%nat &&
      match nth_error inp (k_ptr k) with Some c => negb (std_digit c) | None => true end
  | _ => false
  end.
Inductive override_reads (hp : list N -> bool -> option host) (hostname : bool) (inp : list N) : cfg -> list N -> Prop :=
| ord_here k : (k_ptr k <= length inp)%nat -> override_port_ends inp k = true -> override_reads hp hostname inp k (k_buf k)
| ord_later k k' b : (k_ptr k <= length inp)%nat -> override_step hp hostname inp k = SGo k' ->
    override_reads hp hostname inp k' b -> override_reads hp hostname inp k b.

(** the host (and whether it is opaque) that a setter hands to the host parser *)
Definition setter_asks (hp : list N -> bool -> option host) (s : setter) (u : urlrec) (h : list N) (o : bool) : Prop :=
  match s with
  | SetHref t => std_host_of hp None t h o
  | SetHost t => ~ std_opaque u /\ override_asks hp false (std_strip_tabs t) (mkcfg S_host 0 [] false false false u) h o
  | SetHostname t => ~ std_opaque u /\ override_asks hp true (std_strip_tabs t) (mkcfg S_host 0 [] false false false u) h o
  | _ => False
  end.
(** the text that a setter reads as a port *)
Definition setter_reads (hp : list N -> bool -> option host) (s : setter) (u : urlrec) (b : list N) : Prop :=
  match s with
  | SetHref t => std_port_read hp None t b
  | SetHost t => ~ std_opaque u /\ override_reads hp false (std_strip_tabs t) (mkcfg S_host 0 [] false false false u) b
  | SetHostname t => ~ std_opaque u /\ override_reads hp true (std_strip_tabs t) (mkcfg S_host 0 [] false false false u) b
  | SetPort t => ~ std_no_authority u /\ override_reads hp false (std_strip_tabs t) (mkcfg S_port 0 [] false false false u) b
  | _ => False
  end.

(** Where it matters whether a URL has port 0 or no port: an empty host for a non-special
    URL that has a host, and a special URL becoming "file". *)
Definition port_zero_case (s : setter) (u : urlrec) : Prop :=
  port u = Some 0 /\ username u = [] /\ password u = [] /\
  match s with
  | SetHost t | SetHostname t =>
      ~ std_opaque u /\ std_is_special u = false /\ uhost u <> Some (HStr []) /\
      match std_strip_tabs t with [] => True | c :: _ => c = 47 \/ c = 63 \/ c = 35 end
  | SetProtocol t =>
      std_is_special u = true /\ scheme u <> $"file" /\ exists f r, std_strip_tabs (t ++ $":") = f ++ 58 :: r /\ std_lower f = $"file"
  | _ => False
  end.
