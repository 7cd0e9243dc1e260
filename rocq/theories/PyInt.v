(** Python integer/string conversions: [int(s, base)], [str(n)], [f"{n:x}"].
    These model CPython's [PyLong_FromUnicodeObject]/[PyLong_FromString]; they are
    used by parse.py:1190, 867, 1404, 1448, 1474-1480, 3685 and 1305, 1546, 1576, 1849. *)
From Coq Require Import List NArith ZArith Bool.
From Verif Require Import PyStr.
Import ListNotations.
Open Scope N_scope.

(** Digits of [n] in base [b], most significant first. Fuel: one step per
    binary digit is enough for every base >= 2. *)
Fixpoint digits_fuel (fuel : nat) (b n : N) (acc : list N) : list N :=
  match fuel with
  | O => acc
  | S f => let acc' := (n mod b) :: acc in
           if n / b =? 0 then acc' else digits_fuel f b (n / b) acc'
  end.
Definition digits (b n : N) : list N := digits_fuel (S (N.to_nat (N.log2 n))) b n [].

Definition digit_char (d : N) : N := if d <? 10 then 48 + d else 87 + d.

(** [str(n)] for a non-negative integer *)
Definition dec_str (n : N) : str := map digit_char (digits 10 n).
(** [f"{n:x}"] *)
Definition hex_str (n : N) : str := map digit_char (digits 16 n).

(** [str(z)] *)
Definition dec_str_Z (z : Z) : str :=
  match z with Zneg p => 45 :: dec_str (Npos p) | _ => dec_str (Z.to_N z) end.

(** [_PyLong_DigitValue] *)
Definition digit_val (c : N) : option N :=
  if (48 <=? c) && (c <=? 57) then Some (c - 48)
  else if (97 <=? c) && (c <=? 122) then Some (c - 87)
  else if (65 <=? c) && (c <=? 90) then Some (c - 55)
  else None.

Definition is_space_ascii (c : N) : bool := ((9 <=? c) && (c <=? 13)) || (c =? 32).

(** The digit loop of PyLong_FromString: single underscores are allowed between
    digits, not twice in a row and not at the end. Returns value, number of digits and
    the unread rest. *)
Fixpoint scan_digits (base : N) (s : str) (prev_us : bool) (acc : N) (cnt : N)
  : option (N * N * str) :=
  match s with
  | [] => if prev_us then None else Some (acc, cnt, [])
  | c :: t =>
      if c =? 95 then if prev_us then None else scan_digits base t true acc cnt
      else match digit_val c with
           | Some d => if d <? base then scan_digits base t false (acc * base + d) (cnt + 1)
                       else if prev_us then None else Some (acc, cnt, s)
           | None => if prev_us then None else Some (acc, cnt, s)
           end
  end.

(** [_PyUnicode_TransformDecimalAndSpaceToASCII]: identity on ASCII strings;
    otherwise Unicode spaces become ' ', decimal digits their ASCII digit, anything else '?'. *)
Definition to_ascii_digits (udec : N -> option N) (uspace : N -> bool) (s : str) : str :=
  if forallb (fun c => c <? 128) s then s
  else map (fun c => if c <? 127 then c
                     else if uspace c then 32
                     else match udec c with Some d => 48 + d | None => 63 end) s.

Definition is_prefix_char (base c : N) : bool :=
  ((base =? 16) && ((c =? 120) || (c =? 88))) || ((base =? 8) && ((c =? 111) || (c =? 79))).

(** optional sign *)
Definition take_sign (s : str) : bool * str :=
  match s with
  | c :: t => if c =? 43 then (false, t) else if c =? 45 then (true, t) else (false, s)
  | [] => (false, s)
  end.

(** optional "0x"/"0o" prefix, after which one underscore is allowed *)
Definition skip_prefix (base : N) (s : str) : str :=
  match s with
  | z :: x :: t =>
      if (z =? 48) && is_prefix_char base x
      then match t with u :: t' => if u =? 95 then t' else t | [] => t end
      else s
  | _ => s
  end.

(** [int(s, base)] for base 8, 10 or 16; [None] is ValueError. [limit] is
    sys.get_int_max_str_digits() (None or 0: unlimited), which applies to bases that are
    not powers of two. *)
Definition py_int (limit : option N) (udec : N -> option N) (uspace : N -> bool)
    (s0 : str) (base : N) : option Z :=
  let s := drop_while is_space_ascii (to_ascii_digits udec uspace s0) in
  let (neg, s) := take_sign s in
  let s := skip_prefix base s in
  if match s with c :: _ => c =? 95 | [] => false end then None
  else
    match scan_digits base s false 0 0 with
    | None => None
    | Some (v, cnt, rest) =>
        if cnt =? 0 then None
        else if (base =? 10) && match limit with Some l => l <? cnt | None => false end then None
        else if forallb is_space_ascii rest
             then Some (if neg then (- Z.of_N v)%Z else Z.of_N v)
             else None
    end.
