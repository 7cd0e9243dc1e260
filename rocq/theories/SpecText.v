(** Specifications for the text layer, written from the Encoding Standard and
    the URL Standard, independently of the model. *)
From Coq Require Import Ascii String.
From Coq Require Import NArith Bool List.
Import ListNotations.
Open Scope N_scope.

(** What a CPython str can hold: code points up to U+10FFFF. *)
Definition is_pystr (s : list N) : Prop := Forall (fun c => c <= 1114111) s.
Definition is_bytes (b : list N) : Prop := Forall (fun c => c < 256) b.

Definition surrogate (c : N) : Prop := 55296 <= c <= 57343.
Definition surrogate_free (s : list N) : Prop := Forall (fun c => ~ surrogate c) s.

Definition leading (c : N) : bool := (55296 <=? c) && (c <=? 56319).
Definition trailing (c : N) : bool := (56320 <=? c) && (c <=? 57343).

(** Infra "convert a string into a scalar value string": well-formed
    surrogate pairs are one code point, lone surrogates become U+FFFD. *)
Fixpoint scalar_value_string (s : list N) : list N :=
  match s with
  | [] => []
  | c :: t =>
      match t with
      | d :: t' =>
          if leading c && trailing d
          then (65536 + (c - 55296) * 1024 + (d - 56320)) :: scalar_value_string t'
          else (if leading c || trailing c then 65533 else c) :: scalar_value_string t
      | [] => [if leading c || trailing c then 65533 else c]
      end
  end.

(** Encoding Standard, UTF-8 encoder handler. *)
Definition std_utf8_encode1 (c : N) : list N :=
  if c <=? 127 then [c]
  else
    let '(count, offset) :=
      if c <=? 2047 then (1, 192) else if c <=? 65535 then (2, 224) else (3, 240) in
    (N.shiftr c (6 * count) + offset)
    :: (if 3 <=? count then [N.lor 128 (N.land (N.shiftr c 12) 63)] else [])
    ++ (if 2 <=? count then [N.lor 128 (N.land (N.shiftr c 6) 63)] else [])
    ++ [N.lor 128 (N.land c 63)].
Definition std_utf8_encode (s : list N) : list N := flat_map std_utf8_encode1 s.

(** Encoding Standard, UTF-8 decoder handler. *)
Record dec_state := {
  d_cp : N; d_seen : N; d_needed : N; d_lower : N; d_upper : N }.
Definition d_start : dec_state :=
  {| d_cp := 0; d_seen := 0; d_needed := 0; d_lower := 128; d_upper := 191 |}.

(** "UTF-8 bytes needed is 0" *)
Definition std_lead (byte : N) : list N * dec_state :=
  if byte <=? 127 then ([byte], d_start)
  else if (194 <=? byte) && (byte <=? 223) then
    ([], {| d_cp := N.land byte 31; d_seen := 0; d_needed := 1; d_lower := 128; d_upper := 191 |})
  else if (224 <=? byte) && (byte <=? 239) then
    ([], {| d_cp := N.land byte 15; d_seen := 0; d_needed := 2;
            d_lower := if byte =? 224 then 160 else 128;
            d_upper := if byte =? 237 then 159 else 191 |})
  else if (240 <=? byte) && (byte <=? 244) then
    ([], {| d_cp := N.land byte 7; d_seen := 0; d_needed := 3;
            d_lower := if byte =? 240 then 144 else 128;
            d_upper := if byte =? 244 then 143 else 191 |})
  else ([65533], d_start).

(** One byte. Out of range: reset, restore the byte to the stream, error. *)
Definition std_step (st : dec_state) (byte : N) : list N * dec_state :=
  if d_needed st =? 0 then std_lead byte
  else if negb ((d_lower st <=? byte) && (byte <=? d_upper st)) then
    let (out, st') := std_lead byte in (65533 :: out, st')
  else
    let cp := N.lor (N.shiftl (d_cp st) 6) (N.land byte 63) in
    let seen := d_seen st + 1 in
    if seen =? d_needed st then ([cp], d_start)
    else ([], {| d_cp := cp; d_seen := seen; d_needed := d_needed st;
                 d_lower := 128; d_upper := 191 |}).
Fixpoint std_run (st : dec_state) (b : list N) : list N :=
  match b with
  | [] => if d_needed st =? 0 then [] else [65533]
  | x :: t => let (out, st') := std_step st x in out ++ std_run st' t
  end.
(** UTF-8 decode without BOM, errors replaced by U+FFFD. *)
Definition std_utf8_decode (b : list N) : list N := std_run d_start b.

(** ASCII hex digits and their value *)
Definition std_hex (c : N) : option N :=
  if (48 <=? c) && (c <=? 57) then Some (c - 48)
  else if (65 <=? c) && (c <=? 70) then Some (c - 65 + 10)
  else if (97 <=? c) && (c <=? 102) then Some (c - 97 + 10)
  else None.

(** URL Standard "percent-decode a byte sequence" *)
Fixpoint std_percent_decode (b : list N) : list N :=
  match b with
  | [] => []
  | c :: t =>
      if c =? 37 then
        match t with
        | x :: t1 =>
            match t1 with
            | y :: t2 =>
                match std_hex x, std_hex y with
                | Some h, Some l => (h * 16 + l) :: std_percent_decode t2
                | _, _ => 37 :: std_percent_decode t
                end
            | [] => 37 :: std_percent_decode t
            end
        | [] => [37]
        end
      else c :: std_percent_decode t
  end.

(** URL Standard percent-encode sets, as predicates on code points. *)
Definition one_of (c : N) (l : list N) : bool := existsb (N.eqb c) l.
Definition c0_control_set (c : N) : bool := (c <=? 31) || (126 <? c).
(* space, quotation mark, less-than, greater-than, grave accent *)
Definition fragment_set (c : N) : bool := c0_control_set c || one_of c [32; 34; 60; 62; 96].
(* space, quotation mark, #, less-than, greater-than *)
Definition query_set (c : N) : bool := c0_control_set c || one_of c [32; 34; 35; 60; 62].
(* apostrophe *)
Definition special_query_set (c : N) : bool := query_set c || (c =? 39).
(*  ? ` { }  *)
Definition path_set (c : N) : bool := query_set c || one_of c [63; 96; 123; 125].
(*  / : ; = @ [ \ ] ^ |  *)
Definition userinfo_set (c : N) : bool :=
  path_set c || one_of c [47; 58; 59; 61; 64; 91; 92; 93; 94; 124].
(*  $ % & + ,  *)
Definition component_set (c : N) : bool := userinfo_set c || one_of c [36; 37; 38; 43; 44].
(* !, apostrophe, parentheses, tilde *)
Definition urlencoded_set (c : N) : bool := component_set c || one_of c [33; 39; 40; 41; 126].

Definition std_hex_digit (d : N) : N := if d <=? 9 then 48 + d else 65 + (d - 10).
(** "percent-encode a byte" *)
Definition std_percent_byte (b : N) : list N :=
  [37; std_hex_digit (N.shiftr b 4); std_hex_digit (N.land b 15)].

(** "UTF-8 percent-encode a string" (percent-encode after encoding with UTF-8) *)
Definition std_percent_encode1 (set : N -> bool) (plus : bool) (c : N) : list N :=
  if plus && (c =? 32) then [43]
  else if set c then flat_map std_percent_byte (std_utf8_encode1 c)
  else [c].
Definition std_percent_encode (set : N -> bool) (plus : bool) (s : list N) : list N :=
  flat_map (std_percent_encode1 set plus) (scalar_value_string s).

(** "application/x-www-form-urlencoded serializer" *)
Fixpoint std_urlencoded_serialize (tuples : list (list N * list N)) : list N :=
  match tuples with
  | [] => []
  | (n, v) :: t =>
      std_percent_encode urlencoded_set true n ++ [61]
      ++ std_percent_encode urlencoded_set true v
      ++ match t with [] => [] | _ => 38 :: std_urlencoded_serialize t end
  end.

(** strictly split a byte sequence on a byte *)
Fixpoint std_strict_split (sep : N) (b : list N) (token : list N) : list (list N) :=
  match b with
  | [] => [token]
  | c :: t => if c =? sep then token :: std_strict_split sep t [] else std_strict_split sep t (token ++ [c])
  end.
(** bytes up to the first [sep], and the bytes after it if there is one *)
Fixpoint std_upto (sep : N) (b : list N) : list N * list N :=
  match b with
  | [] => ([], [])
  | c :: t => if c =? sep then ([], t) else let (x, y) := std_upto sep t in (c :: x, y)
  end.
(** "application/x-www-form-urlencoded parser" *)
Definition std_form_field (b : list N) : list N :=
  std_utf8_decode (std_percent_decode (map (fun c => if c =? 43 then 32 else c) b)).
Definition std_urlencoded_parse (b : list N) : list (list N * list N) :=
  map (fun seq => let (n, v) := std_upto 61 seq in (std_form_field n, std_form_field v))
    (filter (fun seq => match seq with [] => false | _ => true end) (std_strict_split 38 b [])).

(** The shape of percent-encoded text: every character is allowed literally or
    is part of a "%XY" triple with upper-case hex digits. *)
Definition upper_hex (c : N) : Prop := (48 <= c <= 57) \/ (65 <= c <= 70).
Inductive percent_encoded (allowed : N -> Prop) : list N -> Prop :=
| pe_nil : percent_encoded allowed []
| pe_lit c t : allowed c -> percent_encoded allowed t -> percent_encoded allowed (c :: t)
| pe_esc x y t : upper_hex x -> upper_hex y -> percent_encoded allowed t ->
                 percent_encoded allowed (37 :: x :: y :: t).
