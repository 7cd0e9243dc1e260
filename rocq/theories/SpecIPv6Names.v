(** C96: the IPv6 texts on which the code counts the pieces before it looks at them. *)
From Coq Require Import NArith List.
Import ListNotations.
Open Scope N_scope.

Definition colons (s : list N) : nat := count_occ N.eq_dec s 58.
(** a colon at the end, after which the ninth piece would begin ("::" at the start counts as one piece) *)
Definition late_colon (s : list N) : Prop :=
  (exists p, s = p ++ [58]) /\ (colons s = 9%nat /\ firstn 2 s = [58; 58] \/ colons s = 8%nat /\ firstn 2 s <> [58; 58]).
