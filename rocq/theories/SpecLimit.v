(** The interpreter without int/str digit limit, and inputs too short for the limit to matter. *)
From Coq Require Import NArith List.
From Verif Require Import PyStr Codec Env HostModel Parser.
Import ListNotations.
Open Scope N_scope.

Definition unlimited (E : env) : env :=
  {| icu_to_ascii := icu_to_ascii E; icu_to_unicode := icu_to_unicode E; codec := codec E;
     uni_decimal := uni_decimal E; uni_space := uni_space E; uni_lower := uni_lower E;
     int_limit := None; has_validity := has_validity E |}.

(** ICU's result for the host text [h], if any, has at most 4/5 of [l] characters (16^4 < 10^5, so a
    hexadecimal number of that length is below 10^l) *)
Definition short_domains (E : env) (l : N) (h : str) : Prop :=
  forall d, snd (domain_to_ascii E false (utf8_decode (string_percent_decode h))) = Ok d -> 5 * N.of_nat (length d) <= 4 * l.
(** the same for all parts of a text *)
Definition short_input (E : env) (s : str) : Prop :=
  match int_limit E with
  | None => True
  | Some l => N.of_nat (length s) <= l /\ forall h, (length h <= length s)%nat -> short_domains E l h
  end.
(** a base given as text is parsed too *)
Definition base_short (E : env) (base : base_arg) : Prop :=
  match base with BStr t => short_input E t | _ => True end.
