(** Vocabulary of C101 - C103: the parts of an input "scheme://authority rest". *)
From Coq Require Import Ascii String.
From Coq Require Import NArith Bool Arith List.
From Verif Require Import PyStr Env HostModel UrlRecord SpecText SpecUrl SpecReference SpecParser.
Import ListNotations.
Open Scope N_scope.

(** the characters that end an authority: '/', '?', '#'; for special schemes also a backslash *)
Definition ends_authority (sch : list N) (c : N) : Prop := std_slash sch c \/ c = 63 \/ c = 35.
(** the text of an authority: no character that ends it; not ending with a character that is
    stripped from inputs; not empty if the scheme is special *)
Definition authority_text (sch a : list N) : Prop :=
  Forall (fun c => ~ ends_authority sch c) a /\ std_rstrip a = a /\ (std_special sch -> std_strip_tabs a <> []).
(** what may follow an authority *)
Definition rest_text (sch t : list N) : Prop := match t with [] => True | c :: _ => ends_authority sch c end.

(** the authority of one record and the path, query and fragment of another *)
Definition with_rest (v u : urlrec) : urlrec :=
  mkurl (scheme u) (username u) (password u) (uhost u) (port u) (path v) (query v) (fragment v).

(** a host as it may be written before a ':' and a port: without ':' or '[', ']', or in brackets *)
Definition host_text (h : list N) : Prop :=
  (forall c, In c h -> c <> 58 /\ c <> 91 /\ c <> 93) \/ (exists x, h = 91 :: x ++ [93] /\ forall c, In c x -> c <> 91 /\ c <> 93).
(** too many digits for int() *)
Definition over_limit (limit : option N) (ps : list N) : bool := match limit with Some l => l <? N.of_nat (length ps) | None => false end.
(** the port that the text after the ':' stands for *)
Definition port_meaning (limit : option N) (sch ps : list N) : res (option N) :=
  if negb (forallb std_digit ps) then Err EURLParse
  else if (length ps =? 0)%nat then Ok None
  else if over_limit limit ps then Err EValue
  else if 65535 <? std_decimal ps then Err EURLParse
  else Ok (std_port_of sch (std_decimal ps)).
