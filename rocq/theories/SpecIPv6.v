(** Grammars for IPv6 addresses: the texts that the URL Standard's IPv6 parser
    accepts (RFC 4291, section 2.2, with the standard's value rules) and the texts
    that the code accepts, each with the address that they denote. *)
From Coq Require Import Ascii String.
From Coq Require Import NArith Bool Arith List.
From Verif Require Import PyStr SpecText SpecHost.
Import ListNotations.
Open Scope N_scope.

(** one to four hexadecimal digits *)
Definition hex_text (s : str) (v : N) : Prop :=
  (1 <= length s <= 4)%nat /\ std_radix_value 16 s 0 = Some v.
(** a decimal number up to 255 without superfluous leading zero *)
Definition octet_text (s : str) (v : N) : Prop :=
  s <> [] /\ std_radix_value 10 s 0 = Some v /\ v <= 255 /\ (forall t, s = 48 :: t -> t = []).

(** something between two colons, and the pieces that it denotes *)
Inductive v6_item : str -> list N -> Prop :=
| item_hex s v : hex_text s v -> v6_item s [v]
| item_quad sa sb sc sd a b c d :
    octet_text sa a -> octet_text sb b -> octet_text sc c -> octet_text sd d ->
    v6_item (sa ++ [46] ++ sb ++ [46] ++ sc ++ [46] ++ sd) [a * 256 + b; c * 256 + d].

(** a non-empty sequence of items with single colons between them *)
Inductive v6_seq : str -> list N -> Prop :=
| seq_one s vs : v6_item s vs -> v6_seq s vs
| seq_more s vs t ws : v6_item s vs -> v6_seq t ws -> v6_seq (s ++ [58] ++ t) (vs ++ ws).
(** the same, with hexadecimal items only *)
Inductive v6_hexes : str -> list N -> Prop :=
| hexes_one s v : hex_text s v -> v6_hexes s [v]
| hexes_more s v t ws : hex_text s v -> v6_hexes t ws -> v6_hexes (s ++ [58] ++ t) (v :: ws).
(** the same, hexadecimal items and at the end possibly a dotted quad *)
Inductive v6_std_seq : str -> list N -> Prop :=
| std_one s vs : v6_item s vs -> v6_std_seq s vs
| std_more s v t ws : hex_text s v -> v6_std_seq t ws -> v6_std_seq (s ++ [58] ++ t) (v :: ws).

Definition or_nothing (P : str -> list N -> Prop) (s : str) (vs : list N) : Prop := (s = [] /\ vs = []) \/ P s vs.

(** the URL Standard *)
Inductive std_v6_text : str -> list N -> Prop :=
| sv6_full s a : v6_std_seq s a -> length a = 8%nat -> std_v6_text s a
| sv6_short l r vl vr : or_nothing v6_hexes l vl -> or_nothing v6_std_seq r vr -> (length vl + length vr <= 7)%nat ->
    std_v6_text (l ++ [58; 58] ++ r) (vl ++ repeat 0 (8 - length vl - length vr) ++ vr).

(** the code: a dotted quad may stand anywhere, "::" after seven pieces is refused, and
    "::" at the beginning may be followed by one more colon *)
Inductive code_v6_text : str -> list N -> Prop :=
| cv6_full s a : v6_seq s a -> length a = 8%nat -> code_v6_text s a
| cv6_short l r vl vr : or_nothing v6_seq l vl -> or_nothing v6_seq r vr ->
    (length vl <= 6)%nat -> (length vl + length vr <= 7)%nat ->
    code_v6_text (l ++ [58; 58] ++ r) (vl ++ repeat 0 (8 - length vl - length vr) ++ vr)
| cv6_extra r vr : v6_seq r vr -> (length vr <= 6)%nat ->
    code_v6_text ([58; 58; 58] ++ r) (repeat 0 (8 - length vr) ++ vr).

(** a '.' with a ':' somewhere after it *)
Definition dot_before_colon (s : str) : Prop := exists p q r, s = p ++ [46] ++ q ++ [58] ++ r.

(** the texts on which the code and the standard differ *)
Definition odd_v6 (s : str) : Prop :=
  (exists a, code_v6_text s a /\ (starts_with [58; 58; 58] s = true \/ dot_before_colon s)) \/
  (exists l vl, s = l ++ [58; 58] /\ v6_hexes l vl /\ length vl = 7%nat).
