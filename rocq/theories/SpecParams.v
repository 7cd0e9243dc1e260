(** The list operations of URLSearchParams, written from the URL Standard
    (section 6.2) and the Infra Standard (code unit order), independently of the
    model. *)
From Coq Require Import NArith Bool List Permutation Sorted.
From Verif Require Import SpecText.
Import ListNotations.
Open Scope N_scope.

Definition tuple := (list N * list N)%type.
Definition named (n : list N) (t : tuple) : bool :=
  if list_eq_dec N.eq_dec (fst t) n then true else false.
Definition valued (v : list N) (t : tuple) : bool :=
  if list_eq_dec N.eq_dec (snd t) v then true else false.

Definition std_append (l : list tuple) (n v : list N) : list tuple := l ++ [(n, v)].
(** "If value is given, then remove all tuples whose name is name and value is
    value"; "otherwise, remove all tuples whose name is name". *)
Definition std_delete (l : list tuple) (n : list N) (v : option (list N)) : list tuple :=
  match v with
  | Some v => filter (fun t => negb (named n t && valued v t)) l
  | None => filter (fun t => negb (named n t)) l
  end.
Definition std_get (l : list tuple) (n : list N) : option (list N) :=
  match find (named n) l with Some t => Some (snd t) | None => None end.
Definition std_get_all (l : list tuple) (n : list N) : list (list N) :=
  map snd (filter (named n) l).
Definition std_has (l : list tuple) (n : list N) (v : option (list N)) : bool :=
  match v with
  | Some v => existsb (fun t => named n t && valued v t) l
  | None => existsb (named n) l
  end.
(** "If this's list contains any tuples whose name is name, then set the value
    of the first such tuple to value and remove the others. Otherwise, append." *)
Fixpoint std_set (l : list tuple) (n v : list N) : list tuple :=
  match l with
  | [] => [(n, v)]
  | t :: r => if named n t then (n, v) :: std_delete r n None else t :: std_set r n v
  end.

(** A number in an argument converts to the string of its digits before any
    operation (Web IDL); [%XY] with two hex digits is an escape. *)
Definition is_hex (c : N) : bool := match std_hex c with Some _ => true | None => false end.
Fixpoint has_escape (s : list N) : bool :=
  match s with
  | [] => false
  | c :: t => match t with
              | x :: y :: _ => ((c =? 37) && is_hex x && is_hex y) || has_escape t
              | _ => false
              end
  end.

(** What the library applies to the names it is given (and to the values given to
    append and set) and the standard does not. *)
Definition std_unescape (s : list N) : list N :=
  std_utf8_decode (std_percent_decode (std_utf8_encode (scalar_value_string s))).

(** UTF-16 (RFC 2781, section 2.1) and the code unit order of Infra. *)
Definition std_utf16 (s : list N) : list N :=
  flat_map (fun c => if c <? 65536 then [c]
                     else [N.lor 55296 (N.shiftr (c - 65536) 10); N.lor 56320 (N.land (c - 65536) 1023)]) s.
Definition code_unit_less (a b : list N) : Prop :=
  (exists x t, b = a ++ x :: t) \/
  (exists p x y a' b', a = p ++ x :: a' /\ b = p ++ y :: b' /\ x < y).
(** order on tuples: names, not greater *)
Definition name_le (a b : tuple) : Prop := ~ code_unit_less (std_utf16 (fst b)) (std_utf16 (fst a)).
Definition same_units (n : list N) (t : tuple) : bool :=
  if list_eq_dec N.eq_dec (std_utf16 (fst t)) (std_utf16 n) then true else false.
Definition stable_sort_of (l l' : list tuple) : Prop :=
  Permutation l l' /\ StronglySorted name_le l' /\
  (forall n, filter (same_units n) l' = filter (same_units n) l).
