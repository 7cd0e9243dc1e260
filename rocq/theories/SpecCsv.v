(** Tables written in the format of RFC 4180, and what an 8-bit encoding makes of a file. *)
From Coq Require Import Ascii String.
From Coq Require Import NArith Bool Arith List.
From Verif Require Import PyStr.
Import ListNotations.
Open Scope N_scope.

(** a field: as it is, or in double quotes with every double quote doubled *)
Inductive field_text : str -> str -> Prop :=
| bare f : Forall (fun c => ~ In c [44; 34; 13; 10]) f -> field_text f f
| quoted f : field_text f (34 :: flat_map (fun c => if c =? 34 then [34; 34] else [c]) f ++ [34]).
(** a record: fields separated by commas *)
Inductive record_text : list str -> str -> Prop :=
| one_field f t : field_text f t -> record_text [f] t
| more_fields f t fs ts : field_text f t -> record_text fs ts -> record_text (f :: fs) (t ++ 44 :: ts).
(** a table: records on lines of their own, none of them written as an empty line; a line ends with
    CR LF, LF or CR *)
Definition line_end (e : str) : Prop := e = [13; 10] \/ e = [10] \/ e = [13].
Inductive table_text : list (list str) -> str -> Prop :=
| no_record : table_text [] []
| last_record r t : record_text r t -> t <> [] -> table_text [r] t
| more_records r t e rs ts :
    record_text r t -> t <> [] -> line_end e -> table_text rs ts -> table_text (r :: rs) (t ++ e ++ ts).

(** fields the csv module accepts *)
Definition readable (f : str) : Prop := ~ In 0 f /\ N.of_nat (length f) <= 131072.
Definition no_break (f : str) : Prop := ~ In 13 f /\ ~ In 10 f.
(** a text without its line breaks *)
Definition unbroken (f : str) : str := filter (fun c => negb ((c =? 13) || (c =? 10))) f.

(** an 8-bit encoding that extends ASCII: every byte by itself, None for a byte without a character *)
Fixpoint bytewise (dec : N -> option N) (file : list N) : option str :=
  match file with
  | [] => Some []
  | b :: t =>
      match dec b, bytewise dec t with
      | Some c, Some s => Some (c :: s)
      | _, _ => None
      end
  end.
Definition extends_ascii (dec : N -> option N) : Prop :=
  (forall b, b < 128 -> dec b = Some b) /\ (forall b c, 128 <= b -> dec b = Some c -> 128 <= c).
