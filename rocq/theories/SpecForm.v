(** Vocabulary of C135: form-urlencoded text, and what a codec makes of a string. *)
From Coq Require Import Ascii String.
From Coq Require Import NArith Bool List.
From Verif Require Import PyStr AnyCodec SpecText SpecUrl.
Import ListNotations.
Open Scope N_scope.

(** the characters that stand for themselves: letters, digits, * - . _ ~ *)
Definition form_plain (c : N) : bool := std_alpha c || std_digit c || existsb (N.eqb c) $"*-._~".
(** a text that stands for these bytes: '+' for a space, plain characters, %XY *)
Inductive form_text : list N -> list N -> Prop :=
| ft_nil : form_text [] []
| ft_space t bs : form_text t bs -> form_text ($"+" ++ t) (32 :: bs)
| ft_plain c t bs : form_plain c = true -> form_text t bs -> form_text (c :: t) (c :: bs)
| ft_byte b t bs : b < 256 -> form_text t bs -> form_text (std_percent_byte b ++ t) (b :: bs).

(** the bytes of a string (lone surrogates are replaced first): those of the strict codec, or, if it cannot encode
    the string, those with character references *)
Definition codec_bytes {X} (c : anycodec X) (s bs : list N) : Prop :=
  (s = [] /\ bs = []) \/
  (s <> [] /\ (strict c (scalar_value_string s) = EBytes bs \/
               strict c (scalar_value_string s) = EUnencodable /\ exists l, chunks c (scalar_value_string s) = inl l /\ bs = concat l)).
(** the codec raises something else than UnicodeEncodeError, or cannot replace *)
Definition codec_raises {X} (c : anycodec X) (s : list N) (x : X) : Prop :=
  s <> [] /\ (strict c (scalar_value_string s) = EOther x \/
              strict c (scalar_value_string s) = EUnencodable /\ chunks c (scalar_value_string s) = inr x).
(** the field of one pair *)
Definition form_field {X} (c : anycodec X) (p : list N) (nv : list N * list N) : Prop :=
  exists a b bn bv, p = a ++ $"=" ++ b /\ form_text a bn /\ codec_bytes c (fst nv) bn /\ form_text b bv /\ codec_bytes c (snd nv) bv.
Definition pair_bytes {X} (c : anycodec X) (bb : list N * list N) (nv : list N * list N) : Prop :=
  codec_bytes c (fst nv) (fst bb) /\ codec_bytes c (snd nv) (snd bb).

(** the exact text of a byte: '+' for a space if [space], '*' as it is if [star] *)
Definition form_char (space star : bool) (b : N) : list N :=
  if space && (b =? 32) then $"+"
  else if std_alpha b || std_digit b || existsb (N.eqb b) $"-._~" || star && (b =? 42) then [b]
  else std_percent_byte b.
Definition is_charref (chunk : list N) : bool := match chunk with a :: b :: _ => (a =? 38) && (b =? 35) | _ => false end.
(** the text of a string: '+' is used if the string has a space *)
Definition codec_text {X} (c : anycodec X) (s t : list N) : Prop :=
  (s = [] /\ t = []) \/
  (s <> [] /\
   ((exists bs, strict c (scalar_value_string s) = EBytes bs /\ t = flat_map (form_char (existsb (N.eqb 32) s) true) bs) \/
    (strict c (scalar_value_string s) = EUnencodable /\
     exists l, chunks c (scalar_value_string s) = inl l /\ t = flat_map (fun chunk => flat_map (form_char true (negb (is_charref chunk))) chunk) l))).
Definition field_text {X} (c : anycodec X) (p : list N) (nv : list N * list N) : Prop :=
  exists a b, p = a ++ $"=" ++ b /\ codec_text c (fst nv) a /\ codec_text c (snd nv) b.
