(** Specifications for hosts, written from the URL Standard, independently of
    the model. *)
From Coq Require Import Ascii String.
From Coq Require Import NArith Bool Arith List.
From Verif Require Import SpecText.
Import ListNotations.
Open Scope N_scope.

(* ---------- IPv4 ---------- *)

(** value of a radix-R digit *)
Definition std_radix_digit (r c : N) : option N :=
  match std_hex c with Some d => if d <? r then Some d else None | None => None end.
Fixpoint std_radix_value (r : N) (s : list N) (acc : N) : option N :=
  match s with
  | [] => Some acc
  | c :: t => match std_radix_digit r c with
              | Some d => std_radix_value r t (acc * r + d)
              | None => None
              end
  end.

(** "IPv4 number parser": [None] is failure, the boolean is validationError. *)
Definition std_ipv4_number (input : list N) : option (N * bool) :=
  match input with
  | [] => None
  | _ =>
      let '(rest, r, ve) :=
        match input with
        | z :: x :: t =>
            if z =? 48
            then if (x =? 120) || (x =? 88) then (t, 16, true) else (x :: t, 8, true)
            else (input, 10, false)
        | _ => (input, 10, false)
        end in
      match rest with
      | [] => Some (0, true)
      | _ => match std_radix_value r rest 0 with Some v => Some (v, ve) | None => None end
      end
  end.

Definition std_ascii_digit (c : N) : bool := (48 <=? c) && (c <=? 57).

(** "ends in a number checker" *)
Definition std_ends_in_number (input : list N) : bool :=
  let parts := std_strict_split 46 input [] in
  let check (parts : list (list N)) :=
    match last parts [] with
    | [] => false
    | l => forallb std_ascii_digit l
           || match std_ipv4_number l with Some _ => true | None => false end
    end in
  match last parts [] with
  | [] => match parts with [_] => false | _ => check (removelast parts) end
  | _ => check parts
  end.

Fixpoint std_ipv4_numbers (parts : list (list N)) : option (list N) :=
  match parts with
  | [] => Some []
  | p :: t => match std_ipv4_number p, std_ipv4_numbers t with
              | Some (n, _), Some ns => Some (n :: ns)
              | _, _ => None
              end
  end.

(** "IPv4 parser" *)
Definition std_ipv4_parse (input : list N) : option N :=
  let parts := std_strict_split 46 input [] in
  let parts := match last parts [] with
               | [] => match parts with [_] => parts | _ => removelast parts end
               | _ => parts
               end in
  if (4 <? length parts)%nat then None
  else match std_ipv4_numbers parts with
       | None => None
       | Some numbers =>
           let lastn := last numbers 0 in
           if existsb (fun n => 255 <? n) (removelast numbers) then None
           else if 256 ^ (5 - N.of_nat (length numbers)) <=? lastn then None
           else Some (lastn +
                      fold_right N.add 0
                        (map (fun p => snd p * 256 ^ (3 - N.of_nat (fst p)))
                           (combine (seq 0 (length numbers)) (removelast numbers))))
       end.

(** Dotted decimal, as the IPv4 serializer must print it. *)
Inductive dotted_decimal (shortest10 : N -> list N -> Prop) (n : N) : list N -> Prop :=
| dd a b c d sa sb sc sd :
    a < 256 -> b < 256 -> c < 256 -> d < 256 ->
    n mod 4294967296 = a * 16777216 + b * 65536 + c * 256 + d ->
    shortest10 a sa -> shortest10 b sb -> shortest10 c sc -> shortest10 d sd ->
    dotted_decimal shortest10 n (sa ++ [46] ++ sb ++ [46] ++ sc ++ [46] ++ sd).

(* ---------- IPv6 ---------- *)

(** [a] has a run of [r] zero pieces after the pieces [pre] *)
Definition zero_run (a pre post : list N) (r : nat) : Prop := a = pre ++ repeat 0 r ++ post.
Definition first_longest_run (a pre post : list N) (r : nat) : Prop :=
  zero_run a pre post r /\ (2 <= r)%nat /\
  forall pre' post' r', zero_run a pre' post' r' ->
    (r' < r)%nat \/ (r' = r /\ (length pre <= length pre')%nat).

Fixpoint std_join (sep : list N) (l : list (list N)) : list N :=
  match l with
  | [] => []
  | [x] => x
  | x :: t => x ++ sep ++ std_join sep t
  end.

(** The IPv6 serializer's output, declaratively. [hex n s]: s is n in
    shortest lower-case hexadecimal. *)
Definition ipv6_text (hex : N -> list N -> Prop) (a out : list N) : Prop :=
  (exists pre post r hpre hpost,
      first_longest_run a pre post r /\ Forall2 hex pre hpre /\ Forall2 hex post hpost /\
      out = std_join [58] hpre ++ [58; 58] ++ std_join [58] hpost)
  \/
  ((forall pre post r, zero_run a pre post r -> (r < 2)%nat) /\
   exists ha, Forall2 hex a ha /\ out = std_join [58] ha).

(** URL Standard "IPv6 parser". *)
(* "While length is less than 4 and c is an ASCII hex digit" *)
Fixpoint std_v6_hex (max : nat) (rest : list N) (value : N) (len : nat) : N * nat * list N :=
  match max with
  | O => (value, len, rest)
  | S m => match rest with
           | c :: t => match std_hex c with
                       | Some d => std_v6_hex m t (value * 16 + d) (S len)
                       | None => (value, len, rest)
                       end
           | [] => (value, len, rest)
           end
  end.
(* "While c is an ASCII digit": ipv4Piece *)
Fixpoint std_v6_ipv4_piece (rest : list N) (piece : option N) : option (option N * list N) :=
  match rest with
  | c :: t =>
      if std_ascii_digit c then
        let number := c - 48 in
        match piece with
        | None => std_v6_ipv4_piece t (Some number)
        | Some p => if p =? 0 then None
                    else let p' := p * 10 + number in
                         if 255 <? p' then None else std_v6_ipv4_piece t (Some p')
        end
      else Some (piece, rest)
  | [] => Some (piece, [])
  end.
Definition std_set (a : list N) (i : nat) (f : N -> N) : list N :=
  firstn i a ++ match skipn i a with x :: t => f x :: t | [] => [] end.
(* "While c is not the EOF code point" (IPv4 part); needs at most one step per character *)
Fixpoint std_v6_ipv4 (fuel : nat) (rest : list N) (seen idx : nat) (a : list N)
  : option (nat * list N) :=
  match fuel with
  | O => None
  | S f =>
      match rest with
      | [] => if (seen =? 4)%nat then Some (idx, a) else None
      | c :: t =>
          let digits :=
            if (0 <? seen)%nat
            then if (c =? 46) && (seen <? 4)%nat then Some t else None
            else Some rest in
          match digits with
          | None => None
          | Some r =>
              match r with
              | [] => None
              | d :: _ =>
                  if std_ascii_digit d then
                    match std_v6_ipv4_piece r None with
                    | Some (Some p, r') =>
                        let a' := std_set a idx (fun x => x * 256 + p) in
                        let seen' := S seen in
                        std_v6_ipv4 f r' seen'
                          (if (seen' =? 2)%nat || (seen' =? 4)%nat then S idx else idx) a'
                    | _ => None
                    end
                  else None
              end
          end
      end
  end.
(* the outer "While c is not the EOF code point"; returns pieceIndex, compress, address *)
Fixpoint std_v6_main (fuel : nat) (rest : list N) (idx : nat) (compress : option nat) (a : list N)
  : option (nat * option nat * list N) :=
  match fuel with
  | O => None
  | S f =>
      match rest with
      | [] => Some (idx, compress, a)
      | c :: t =>
          if (idx =? 8)%nat then None
          else if c =? 58 then
            match compress with
            | Some _ => None
            | None => std_v6_main f t (S idx) (Some (S idx)) a
            end
          else
            let '(value, len, r) := std_v6_hex 4 rest 0 0 in
            match r with
            | [] => std_v6_main f [] (S idx) compress (std_set a idx (fun _ => value))
            | x :: r' =>
                if x =? 46 then
                  if (len =? 0)%nat then None
                  else if (6 <? idx)%nat then None
                  else match std_v6_ipv4 (S (length rest)) rest 0 idx a with
                       | Some (idx', a') => Some (idx', compress, a')
                       | None => None
                       end
                else if x =? 58 then
                  match r' with
                  | [] => None
                  | _ => std_v6_main f r' (S idx) compress (std_set a idx (fun _ => value))
                  end
                else None
            end
      end
  end.
(* "While pieceIndex is not 0 and swaps is greater than 0" *)
Fixpoint std_v6_swap (swaps idx compress : nat) (a : list N) : list N :=
  match swaps with
  | O => a
  | S s =>
      if (idx =? 0)%nat then a
      else
        let j := (compress + swaps - 1)%nat in
        let x := nth idx a 0 in let y := nth j a 0 in
        std_v6_swap s (idx - 1) compress (std_set (std_set a idx (fun _ => y)) j (fun _ => x))
  end.
Definition std_ipv6_parse (input : list N) : option (list N) :=
  let start :=
    match input with
    | [] => Some (input, 0%nat, None)
    | c :: t =>
        if c =? 58 then
          match t with
          | d :: t' => if d =? 58 then Some (t', 1%nat, Some 1%nat) else None
          | [] => None
          end
        else Some (input, 0%nat, None)
    end in
  match start with
  | None => None
  | Some (rest, idx, compress) =>
      match std_v6_main (S (length rest)) rest idx compress (repeat 0 8) with
      | None => None
      | Some (idx, compress, a) =>
          match compress with
          | Some k => Some (std_v6_swap (idx - k) 7 k a)
          | None => if (idx =? 8)%nat then Some a else None
          end
      end
  end.

(* ---------- code points ---------- *)
Definition std_forbidden_host (c : N) : bool :=
  one_of c [0; 9; 10; 13; 32; 35; 47; 58; 60; 62; 63; 64; 91; 92; 93; 94; 124].
Definition std_forbidden_domain (c : N) : bool :=
  std_forbidden_host c || (c <=? 31) || (c =? 37) || (c =? 127).

(** URL code points and URL units *)
Definition std_noncharacter (c : N) : bool :=
  ((64976 <=? c) && (c <=? 65007)) ||
  existsb (fun k => (c =? k * 65536 + 65534) || (c =? k * 65536 + 65535))
    [0; 1; 2; 3; 4; 5; 6; 7; 8; 9; 10; 11; 12; 13; 14; 15; 16].
Definition std_url_code_point (c : N) : bool :=
  ((48 <=? c) && (c <=? 57)) || ((65 <=? c) && (c <=? 90)) || ((97 <=? c) && (c <=? 122))
  || one_of c [33; 36; 38; 39; 40; 41; 42; 43; 44; 45; 46; 47; 58; 59; 61; 63; 64; 95; 126]
  || ((160 <=? c) && (c <=? 1114109)
      && negb ((55296 <=? c) && (c <=? 57343)) && negb (std_noncharacter c)).
Inductive url_units (allowed : N -> Prop) : list N -> Prop :=
| uu_nil : url_units allowed []
| uu_cp c t : allowed c -> url_units allowed t -> url_units allowed (c :: t)
| uu_esc x y t : std_hex x <> None -> std_hex y <> None -> url_units allowed t ->
                 url_units allowed (37 :: x :: y :: t).
