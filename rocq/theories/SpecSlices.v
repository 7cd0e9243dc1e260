(** Slices of a sequence, as the Python Language Reference describes them: the positions of the selected items. *)
From Coq Require Import ZArith Bool List.
Import ListNotations.
Open Scope Z_scope.

(** a negative index counts from the end *)
Definition from_end (len i : Z) : Z := if i <? 0 then i + len else i.
(** Position [x] is selected: it lies between start and stop, and on the grid of [step] that begins at start (at the
    nearer end of the sequence if start lies outside of it). *)
Definition selected (len : Z) (start stop : option Z) (step x : Z) : bool :=
  if 0 <? step then
    let first := match start with Some i => Z.max 0 (from_end len i) | None => 0 end in
    (first <=? x) && match stop with Some j => x <? from_end len j | None => true end && ((x - first) mod step =? 0)
  else
    let first := match start with Some i => Z.min (len - 1) (from_end len i) | None => len - 1 end in
    (x <=? first) && match stop with Some j => from_end len j <? x | None => true end && ((first - x) mod (- step) =? 0).
Definition positions (n : nat) : list Z := map Z.of_nat (seq 0 n).
(** the selected items, in the order of the positions or, for a negative step, in the opposite order *)
Definition std_slice {A} (l : list A) (start stop : option Z) (step : Z) : list A :=
  let xs := filter (selected (Z.of_nat (length l)) start stop step) (positions (length l)) in
  flat_map (fun x => match nth_error l (Z.to_nat x) with Some a => [a] | None => [] end)
           (if 0 <? step then xs else rev xs).
