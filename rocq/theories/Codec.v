(** Text codecs, percent coding and application/x-www-form-urlencoded:
    /repo/src/urlstd/parse.py:231-421, 497-552, and the urllib.parse functions it
    calls ([quote], [quote_plus], [unquote_to_bytes]). *)
From Coq Require Import Ascii String.
From Coq Require Import NArith Bool List.
From Verif Require Import PyStr PyInt.
Import ListNotations.
Open Scope N_scope.

Definition is_high (c : N) : bool := (55296 <=? c) && (c <=? 56319).
Definition is_low (c : N) : bool := (56320 <=? c) && (c <=? 57343).
Definition is_surrogate (c : N) : bool := (55296 <=? c) && (c <=? 57343).

(** [s.encode("utf-16", "surrogatepass")] as a list of code units. The BOM that
    the codec prepends is removed again by the decoder, so it is left out. *)
Definition utf16_units (c : N) : list N :=
  if c <? 65536 then [c]
  else [55296 + (c - 65536) / 1024; 56320 + (c - 65536) mod 1024].
Definition to_utf16 (s : str) : list N := flat_map utf16_units s.

(** [b.decode("utf-16", "replace")] *)
Fixpoint of_utf16 (us : list N) : str :=
  match us with
  | [] => []
  | u :: t =>
      if is_high u then
        match t with
        | l :: t' => if is_low l
                     then (65536 + (u - 55296) * 1024 + (l - 56320)) :: of_utf16 t'
                     else 65533 :: of_utf16 t
        | [] => [65533]
        end
      else if is_low u then 65533 :: of_utf16 t
      else u :: of_utf16 t
  end.

(** [s.encode("utf-16", "surrogatepass").decode("utf-16", "replace")]
    (parse.py:351 and parse.py:528) *)
Definition usv (s : str) : str := of_utf16 (to_utf16 s).

(** [c.encode("utf-8", "strict")] for one code point; [None] is
    UnicodeEncodeError. *)
Definition utf8_enc1 (c : N) : option (list N) :=
  if is_surrogate c then None
  else if c <? 128 then Some [c]
  else if c <? 2048 then Some [192 + c / 64; 128 + c mod 64]
  else if c <? 65536 then Some [224 + c / 4096; 128 + (c / 64) mod 64; 128 + c mod 64]
  else Some [240 + c / 262144; 128 + (c / 4096) mod 64; 128 + (c / 64) mod 64; 128 + c mod 64].

(** [s.encode(codec, "strict")] for a stateless codec. *)
Fixpoint encode_all (enc : N -> option (list N)) (s : str) : option bytes :=
  match s with
  | [] => Some []
  | c :: t => match enc c, encode_all enc t with
              | Some b, Some bs => Some (b ++ bs)
              | _, _ => None
              end
  end.

(** parse.py:511-529 [utf8_encode]. The [None] branch (UnicodeEncodeError) is
    unreachable: see [utf8_encode_total] in CodecProofs. *)
Definition utf8_encode (s : str) : bytes :=
  match encode_all utf8_enc1 (usv s) with Some b => b | None => [] end.

(** UTF-8 continuation byte *)
Definition is_cont (b : N) : bool := (128 <=? b) && (b <=? 191).
(** Second byte allowed after a three-byte lead / four-byte lead. *)
Definition ok2_of3 (b0 b1 : N) : bool :=
  is_cont b1 && negb ((b0 =? 224) && (b1 <? 160)) && negb ((b0 =? 237) && (160 <=? b1)).
Definition ok2_of4 (b0 b1 : N) : bool :=
  is_cont b1 && negb ((b0 =? 240) && (b1 <? 144)) && negb ((b0 =? 244) && (144 <=? b1)).

(** parse.py:497-508 [utf8_decode]: [b.decode("utf-8", "replace")], following
    CPython's Objects/stringlib/codecs.h (one U+FFFD per maximal subpart; a truncated
    sequence at the end of input is one U+FFFD). *)
Fixpoint utf8_decode (b : bytes) : str :=
  match b with
  | [] => []
  | b0 :: t =>
      if b0 <? 128 then b0 :: utf8_decode t
      else if b0 <? 194 then 65533 :: utf8_decode t
      else if b0 <? 224 then
        match t with
        | [] => [65533]
        | b1 :: t1 =>
            if is_cont b1 then ((b0 - 192) * 64 + (b1 - 128)) :: utf8_decode t1
            else 65533 :: utf8_decode t
        end
      else if b0 <? 240 then
        match t with
        | [] => [65533]
        | b1 :: t1 =>
            if ok2_of3 b0 b1 then
              match t1 with
              | [] => [65533]
              | b2 :: t2 =>
                  if is_cont b2
                  then ((b0 - 224) * 4096 + (b1 - 128) * 64 + (b2 - 128)) :: utf8_decode t2
                  else 65533 :: utf8_decode t1
              end
            else 65533 :: utf8_decode t
        end
      else if b0 <? 245 then
        match t with
        | [] => [65533]
        | b1 :: t1 =>
            if ok2_of4 b0 b1 then
              match t1 with
              | [] => [65533]
              | b2 :: t2 =>
                  if is_cont b2 then
                    match t2 with
                    | [] => [65533]
                    | b3 :: t3 =>
                        if is_cont b3
                        then ((b0 - 240) * 262144 + (b1 - 128) * 4096 + (b2 - 128) * 64 + (b3 - 128))
                             :: utf8_decode t3
                        else 65533 :: utf8_decode t2
                    end
                  else 65533 :: utf8_decode t1
              end
            else 65533 :: utf8_decode t
        end
      else 65533 :: utf8_decode t
  end.

(** Value of an ASCII hex digit (keys of urllib's [_hextobyte]). *)
Definition hex_val (c : N) : option N :=
  if (48 <=? c) && (c <=? 57) then Some (c - 48)
  else if (97 <=? c) && (c <=? 102) then Some (c - 87)
  else if (65 <=? c) && (c <=? 70) then Some (c - 55)
  else None.

(** [urllib.parse.unquote_to_bytes] on bytes (imported as [percent_decode],
    parse.py:20): split at '%', look up the first two bytes of every later item. *)
Definition unquote_item (item : bytes) : bytes :=
  match item with
  | a :: b :: t => match hex_val a, hex_val b with
                   | Some x, Some y => (16 * x + y) :: t
                   | _, _ => 37 :: item
                   end
  | _ => 37 :: item
  end.
Definition percent_decode (b : bytes) : bytes :=
  match split 37 b with
  | [] => []
  | first :: items => first ++ concat (map unquote_item items)
  end.

(** parse.py:289-314 [string_percent_decode] *)
Definition string_percent_decode (s : str) : bytes := percent_decode (utf8_encode s).

(** urllib.parse [_ALWAYS_SAFE]: letters, digits and "_.-~" *)
Definition ALWAYS_SAFE : str := ASCII_ALPHANUMERIC ++ $"_.-~".

Definition hex_upper (d : N) : N := if d <? 10 then 48 + d else 55 + d.
(** '%{:02X}'.format(b) *)
Definition percent_byte (b : N) : str := [37; hex_upper (b / 16); hex_upper (b mod 16)].

(** [urllib.parse.quote_from_bytes]; its rstrip shortcut returns the same
    string and is left out. Non-ASCII characters of [safe] are dropped
    (encode('ascii', 'ignore')). *)
Definition quote_safe (safe : str) (b : N) : bool :=
  mem b ALWAYS_SAFE || (mem b safe && (b <? 128)).
Definition quote_bytes (safe : str) (b : bytes) : str :=
  flat_map (fun c => if quote_safe safe c then [c] else percent_byte c) b.

(** [quote_via(b, safe=...)] on bytes, [quote_via = quote_plus if plus else quote]
    (parse.py:352, 361, 363). *)
Definition quote_via_bytes (plus : bool) (safe : str) (b : bytes) : str :=
  if plus && mem 32 b
  then replace_char 32 43 (quote_bytes (safe ++ [32]) b)
  else quote_bytes safe b.
(** default [safe] of quote ('/') and quote_plus ('') *)
Definition quote_default_safe (plus : bool) : str := if plus then [] else [47].

(** [quote_via(s, safe=safe, encoding=encoding, errors="strict")] on str
    (parse.py:354): None is UnicodeEncodeError. *)
Definition quote_via_str (enc : N -> option (list N)) (plus : bool) (safe s : str) : option str :=
  match encode_all enc s with
  | None => None
  | Some b => Some (if plus && mem 32 s
                    then replace_char 32 43 (quote_bytes (safe ++ [32]) b)
                    else quote_bytes safe b)
  end.

(** The "&#N;" text the xmlcharrefreplace error handler substitutes. *)
Definition charref (c : N) : str := $"&#" ++ dec_str c ++ $";".

(** parse.py:358-364: [codecs.iterencode(s, encoding, errors="xmlcharrefreplace")]
    yields one chunk per character (empty chunks are not yielded). *)
Fixpoint encode_charrefs (enc : N -> option (list N)) (plus : bool) (safe s : str) : option str :=
  match s with
  | [] => Some []
  | c :: t =>
      let chunk := match enc c with
                   | Some b => Some b
                   | None => encode_all enc (charref c)
                   end in
      match chunk, encode_charrefs enc plus safe t with
      | Some b, Some r =>
          Some ((if starts_with $"&#" b
                 then quote_via_bytes plus (quote_default_safe plus) b
                 else quote_via_bytes plus safe b) ++ r)
      | _, _ => None
      end
  end.

(** parse.py:317-364 [string_percent_encode] for a stateless codec [enc]; [None]
    is an uncaught UnicodeEncodeError (only possible if the codec cannot encode
    the characters of "&#0123456789;"). *)
Definition string_percent_encode (enc : N -> option (list N)) (s safe : str) (plus : bool)
  : option str :=
  let s := usv s in
  match quote_via_str enc plus safe s with
  | Some r => Some r
  | None => encode_charrefs enc plus safe s
  end.

(** parse.py:532-552 [utf8_percent_encode]; never [None] for utf-8
    ([utf8_percent_encode_total] in CodecProofs). *)
Definition utf8_percent_encode (s safe : str) (plus : bool) : str :=
  match string_percent_encode utf8_enc1 s safe plus with Some r => r | None => [] end.

(** parse.py:371-421 [urlencode] with encoding utf-8 *)
Definition urlencode (query : list (str * str)) : str :=
  join $"&" (map (fun nv => utf8_percent_encode (fst nv) SAFE_URLENCODED true
                            ++ $"=" ++ utf8_percent_encode (snd nv) SAFE_URLENCODED true) query).

(** parse.py:255-268 [parse_qsl] *)
Definition qsl_field (b : bytes) : str := utf8_decode (percent_decode (replace_char 43 32 b)).
Fixpoint qsl_items (seqs : list bytes) : list (str * str) :=
  match seqs with
  | [] => []
  | s :: t =>
      match s with
      | [] => qsl_items t
      | _ => let (n, v) := split1 61 s in (qsl_field n, qsl_field v) :: qsl_items t
      end
  end.
Definition parse_qsl (query : bytes) : list (str * str) := qsl_items (split 38 query).

(** parse.py:367-368 [u16len] *)
Definition u16len (s : str) : nat :=
  list_sum (map (fun c => if c <=? 65535 then 1%nat else 2%nat) s).
