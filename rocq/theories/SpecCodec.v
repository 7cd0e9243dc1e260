(** What a codec is asked to encode, and what becomes of its answer. *)
From Coq Require Import Ascii String.
From Coq Require Import NArith Bool List.
From Verif Require Import PyStr SpecText SpecUrl SpecReference.
Import ListNotations.
Open Scope N_scope.

(** the text between the first '?' and the first '#', if the '?' comes first *)
Fixpoint until_hash (t : list N) : list N :=
  match t with [] => [] | c :: r => if c =? 35 then [] else c :: until_hash r end.
Fixpoint query_text (t : list N) : option (list N) :=
  match t with
  | [] => None
  | c :: r => if c =? 35 then None else if c =? 63 then Some (until_hash r) else query_text r
  end.
(** [s] as the parser reads it *)
Definition std_query_text (s : list N) : option (list N) := query_text (std_trim s).

(** schemes whose query is encoded with the encoding that was asked for *)
Definition legacy_scheme (sch : list N) : Prop := std_special sch /\ sch <> $"ws" /\ sch <> $"wss".

Definition percent_bytes (set : N -> bool) (b : list N) : list N :=
  flat_map (fun c => if set c then std_percent_byte c else [c]) b.
(** everything but letters, digits and "_.-~/" *)
Definition reference_set (c : N) : bool :=
  negb ((48 <=? c) && (c <=? 57) || (65 <=? c) && (c <=? 90) || (97 <=? c) && (c <=? 122) || one_of c [45; 46; 47; 95; 126]).
(** one chunk: a character reference, or bytes of the text *)
Definition percent_chunk (b : list N) : list N :=
  match b with
  | x :: y :: _ => if (x =? 38) && (y =? 35) then percent_bytes reference_set b else percent_bytes special_query_set b
  | _ => percent_bytes special_query_set b
  end.
