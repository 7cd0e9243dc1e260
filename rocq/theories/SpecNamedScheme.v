(** The scheme a URL string names, with a base URL (URL Standard, 4.3: a relative-URL
    string takes the scheme of its base). *)
From Coq Require Import NArith List.
From Verif Require Import UrlRecord SpecText SpecUrl SpecParser SpecWriting.
Open Scope N_scope.

(** the scheme of the URL [s] stands for: its own one, or that of the base *)
Definition names_scheme (base : option urlrec) (s sch : list N) : Prop :=
  (exists x t, s = x ++ 58 :: t /\ std_scheme x = true /\ sch = std_lower x) \/ (scheme_less s /\ exists b, base = Some b /\ sch = scheme b).
