(** Which texts Python's [int(text, base)] reads, after the Python Language
    Reference ("Integer literals") and the documentation of [int]: optional
    whitespace, a sign, for bases 8 and 16 a base prefix, and digits with single
    underscores between them (also after the prefix). Independent of PyInt.v. *)
From Coq Require Import Ascii String.
From Coq Require Import NArith ZArith Bool Arith List.
From Verif Require Import PyStr SpecText SpecHost.
Import ListNotations.
Open Scope N_scope.

Definition int_space (c : N) : bool := (c =? 32) || ((9 <=? c) && (c <=? 13)).

(** digits [ds] written as [s], with single underscores between digits *)
Inductive digits_text (base : N) : str -> list N -> Prop :=
| dt_one c d : std_radix_digit base c = Some d -> digits_text base [c] [d]
| dt_more c d s ds : std_radix_digit base c = Some d -> digits_text base s ds -> digits_text base (c :: s) (d :: ds)
| dt_underscore c d s ds : std_radix_digit base c = Some d -> digits_text base s ds ->
    digits_text base (c :: 95 :: s) (d :: ds).

Definition base_prefix (base : N) (p : str) : Prop :=
  p = [] \/
  (base = 16 /\ (p = $"0x" \/ p = $"0X" \/ p = $"0x_" \/ p = $"0X_")) \/
  (base = 8 /\ (p = $"0o" \/ p = $"0O" \/ p = $"0o_" \/ p = $"0O_")).

(** [limit]: sys.get_int_max_str_digits(), which does not apply to bases 8 and 16 *)
Definition within_limit (limit : option N) (base : N) (ds : list N) : Prop :=
  match limit with Some l => base = 10 -> N.of_nat (length ds) <= l | None => True end.

Inductive int_literal (limit : option N) (base : N) : str -> Z -> Prop :=
| int_literal_intro ws1 sign prefix body ds ws2 :
    forallb int_space ws1 = true -> forallb int_space ws2 = true ->
    (sign = [] \/ sign = $"+" \/ sign = $"-") ->
    base_prefix base prefix -> digits_text base body ds -> within_limit limit base ds ->
    int_literal limit base (ws1 ++ sign ++ prefix ++ body ++ ws2)
      ((if str_eqb sign $"-" then -1 else 1) * Z.of_N (fold_left (fun a d => a * base + d) ds 0)).

(** What int() sees of a text that is not ASCII: every Unicode decimal digit as its
    ASCII digit and every Unicode space as U+0020 *)
Definition seen_by_int (udec : N -> option N) (uspace : N -> bool) (s t : str) : Prop :=
  if forallb (fun c => c <? 128) s then t = s
  else t = map (fun c => if c <? 127 then c else if uspace c then 32
                         else match udec c with Some d => 48 + d | None => 63 end) s.

(** The URL Standard's "IPv4 number parser" with int() reading the digits *)
Inductive int_number (limit : option N) (udec : N -> option N) (uspace : N -> bool) : str -> N -> Prop :=
| in_empty_hex x : x = 120 \/ x = 88 -> int_number limit udec uspace [48; x] 0
| in_hex x t r n : x = 120 \/ x = 88 -> t <> [] -> seen_by_int udec uspace t r -> int_literal limit 16 r (Z.of_N n) ->
    int_number limit udec uspace (48 :: x :: t) n
| in_octal x t r n : x <> 120 -> x <> 88 -> seen_by_int udec uspace (x :: t) r -> int_literal limit 8 r (Z.of_N n) ->
    int_number limit udec uspace (48 :: x :: t) n
| in_decimal c t r n : c <> 48 \/ t = [] -> seen_by_int udec uspace (c :: t) r -> int_literal limit 10 r (Z.of_N n) ->
    int_number limit udec uspace (c :: t) n.

(** the parts of an IPv4 address: between the dots, without an empty last one *)
Definition address_parts (s : str) : list str :=
  let parts := std_strict_split 46 s [] in
  match last parts [] with [] => match parts with [_] => parts | _ => removelast parts end | _ => parts end.

(** [x] has at most as many decimal digits as the int/str digit limit allows *)
Definition printable (limit : option N) (x : N) : Prop :=
  match limit with Some l => x < 10 ^ l | None => True end.

(** What the code's IPv4 parser computes: the standard's "IPv4 parser" with int()
    reading the numbers, and without rejecting a part above 255 when the last one is
    also above 255. With a ValidityState ([noted]) every number must be printable if
    one of them is above 255. *)
Inductive int_address (limit : option N) (udec : N -> option N) (uspace : N -> bool) (noted : bool) : str -> N -> Prop :=
| int_address_intro s lead final :
    Forall2 (int_number limit udec uspace) (address_parts s) (lead ++ [final]) -> (length lead <= 3)%nat ->
    Forall (fun x => x <= 255) lead \/ 255 < final ->
    final < 256 ^ (4 - N.of_nat (length lead)) ->
    (noted = true -> Forall (printable limit) lead) ->
    int_address limit udec uspace noted s
      (final + fold_right N.add 0 (map (fun p => snd p * 256 ^ (3 - N.of_nat (fst p))) (combine (seq 0 (length lead)) lead))).

(** What the code's validator takes for an octet: a text that int() reads as 0..255
    and that does not start with a superfluous zero *)
Definition int_octet (limit : option N) (udec : N -> option N) (uspace : N -> bool) (p : str) : Prop :=
  (forall t, p = 48 :: t -> t = []) /\
  exists r o, seen_by_int udec uspace p r /\ int_literal limit 10 r (Z.of_N o) /\ o <= 255.
