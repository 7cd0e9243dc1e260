(** Vocabulary of C43: surrogate pairs written instead of the code points that they
    encode (The Unicode Standard, D91). *)
From Coq Require Import NArith List.
From Verif Require Import UrlRecord.
Import ListNotations.
Open Scope N_scope.

(** [t] is [s] with some of its surrogate pairs replaced by their code points *)
Inductive pairs_for : list N -> list N -> Prop :=
| pf_nil : pairs_for [] []
| pf_same c s t : pairs_for s t -> pairs_for (c :: s) (c :: t)
| pf_pair h l s t : 55296 <= h <= 56319 -> 56320 <= l <= 57343 -> pairs_for s t ->
    pairs_for (h :: l :: s) (65536 + (h - 55296) * 1024 + (l - 56320) :: t).

(** records that differ at most in the text of an opaque path *)
Definition same_but_opaque (u v : urlrec) : Prop :=
  scheme v = scheme u /\ username v = username u /\ password v = password u /\
  uhost v = uhost u /\ port v = port u /\ query v = query u /\ fragment v = fragment u /\
  (path v = path u \/ exists p q, path u = POpaque p /\ path v = POpaque q).
