(** What is left of a ValidityState when the description of an error cannot be formatted. *)
From Coq Require Import Ascii String.
From Coq Require Import NArith ZArith Bool Arith List.
From Verif Require Import PyStr Env HostModel Parser Repr Message MsgValidators SpecReports SpecRepr SpecMessages SpecValidity.
Import ListNotations.
Open Scope N_scope.

(** A state in order to which one type was added, but neither its description nor the count: a list of
    types longer by one. *)
Definition one_short (P : verr -> list bit -> Prop) (st : mstate) : Prop :=
  exists st0, in_order P st0 /\
  st = mkms false ($"IPv4-out-of-range-part" :: ms_types st0) (ms_descs st0) (ms_count st0).
(** The same for a log: the last entry is the only one without text. *)
Definition last_untold (l : list entry) : Prop :=
  exists l0 en, l = l0 ++ [en] /\ Forall (fun e => e_text e <> None) l0 /\
  e_type en = $"IPv4-out-of-range-part" /\ e_text en = None.
