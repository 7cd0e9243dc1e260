(** What C47 and C48 say exactly. *)
From Coq Require Import Ascii String.
From Coq Require Import NArith Bool List.
From Verif Require Import PyStr Env HostModel UrlRecord SpecText SpecHost SpecUrl SpecApi.
Import ListNotations.
Open Scope N_scope.

(** [a] is a host as the text before a port: no character that ends an authority, a
    colon only between '[' and ']', and no '[' left open *)
Fixpoint host_part (special inside : bool) (a : list N) : bool :=
  match a with
  | [] => negb inside
  | c :: t =>
      negb ((c =? 47) || (c =? 63) || (c =? 35) || (special && (c =? 92))) && (inside || negb (c =? 58)) &&
      host_part special (if c =? 91 then true else if c =? 93 then false else inside) t
  end.

(** the text is [a ":" d r], where [d] is the port that is refused *)
Definition refused_port (E : env) (special : bool) (t a d r : list N) : Prop :=
  t = a ++ 58 :: d ++ r /\ a <> [] /\ host_part special false a = true /\ bad_port_text E d /\
  (forall c r', r = c :: r' -> std_digit c = false).

(** a port without a host to belong to *)
Definition stray_port (u : urlrec) : Prop := port u <> None /\ std_no_authority u.
