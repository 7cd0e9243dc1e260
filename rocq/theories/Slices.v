(** parse.py:2036-2048 [URLSearchParams.__getitem__] with a slice: [list.__getitem__] (CPython's PySlice_Unpack,
    PySlice_AdjustIndices and list_subscript). The limits of Py_ssize_t, which cut the numbers of a slice off, are left
    out: no list is longer. *)
From Coq Require Import ZArith Bool Arith List.
From Verif Require Import PyStr SearchParams.
Import ListNotations.
Open Scope Z_scope.

(** PySlice_AdjustIndices, for start as for stop *)
Definition adjust (len step i : Z) : Z :=
  if i <? 0 then let i := i + len in if i <? 0 then if step <? 0 then -1 else 0 else i
  else if len <=? i then if step <? 0 then len - 1 else len
  else i.
Definition slice_length (start stop step : Z) : Z :=
  if step <? 0 then if stop <? start then (start - stop - 1) / (- step) + 1 else 0
  else if start <? stop then (stop - start - 1) / step + 1 else 0.
(** the loop of list_subscript: cur = start, start + step, ... *)
Fixpoint take_items (l : pairs) (cur step : Z) (n : nat) : pairs :=
  match n with
  | O => []
  | S n => match nth_error l (Z.to_nat cur) with Some p => p :: take_items l (cur + step) step n | None => [] end
  end.
(** None: ValueError("slice step cannot be zero") *)
Definition sp_slice (l : pairs) (start stop step : option Z) : option pairs :=
  let step := match step with Some k => k | None => 1 end in
  if step =? 0 then None
  else
    let len := Z.of_nat (length l) in
    let start := match start with Some i => adjust len step i | None => if step <? 0 then len - 1 else 0 end in
    let stop := match stop with Some i => adjust len step i | None => if step <? 0 then -1 else len end in
    Some (take_items l start step (Z.to_nat (slice_length start stop step))).
