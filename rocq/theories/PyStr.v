(** Python [str]/[bytes] primitives used by urlstd, and the character-set
    constants at the top of /repo/src/urlstd/parse.py.

    [str] is a list of code points (0..0x10FFFF, surrogates included, exactly
    what a CPython [str] can hold); [bytes] is a list of numbers below 256. *)
From Coq Require Import Ascii String.
From Coq Require Import NArith Bool Arith List.
Import ListNotations.
Open Scope N_scope.

Notation str := (list N).
Definition bytes := list N.

(** String literals. *)
Definition s2l (x : string) : str := map N_of_ascii (list_ascii_of_string x).
Notation "$ x" := (s2l x%string) (at level 0, x at level 0, format "$ x").

(** [c in target] for a one-character string [c]. *)
Definition mem (c : N) (l : str) : bool := existsb (N.eqb c) l.

Fixpoint str_eqb (a b : str) : bool :=
  match a, b with
  | [], [] => true
  | x :: a', y :: b' => (x =? y) && str_eqb a' b'
  | _, _ => false
  end.

(** [s in container] for a container of strings. *)
Definition str_in (x : str) (l : list str) : bool := existsb (str_eqb x) l.

(** A "current character" of [cpstream] (parse.py:156-160): [None] is the
    empty string yielded at the end (EOF). *)
Definition cp := option N.

(** parse.py:174-175 [iscp] *)
Definition iscp (c : cp) (target : str) : bool :=
  match c with Some x => mem x target | None => false end.

(** parse.py:178-179 [iseof] *)
Definition iseof (c : cp) : bool := match c with None => true | Some _ => false end.

(** [c == "x"] for a current character. *)
Definition isc (c : cp) (x : N) : bool :=
  match c with Some y => y =? x | None => false end.

(** [s.startswith(p)] *)
Fixpoint starts_with (p s : str) : bool :=
  match p, s with
  | [], _ => true
  | x :: p', y :: s' => (x =? y) && starts_with p' s'
  | _ :: _, [] => false
  end.

(** [s.endswith(c)] for a single character. *)
Definition ends_with_char (s : str) (c : N) : bool :=
  match rev s with x :: _ => x =? c | [] => false end.

(** [s.split(sep)] for a one-character separator; never returns []. *)
Fixpoint split (sep : N) (s : str) : list str :=
  match s with
  | [] => [[]]
  | c :: t =>
      if c =? sep then [] :: split sep t
      else match split sep t with
           | p :: ps => (c :: p) :: ps
           | [] => [[c]]
           end
  end.

(** [s.split(sep, maxsplit=1)] followed by [(... + [""])[:2]], the idiom of
    parse.py:260 and parse.py:474. *)
Fixpoint split1 (sep : N) (s : str) : str * str :=
  match s with
  | [] => ([], [])
  | c :: t => if c =? sep then ([], t)
              else let (a, b) := split1 sep t in (c :: a, b)
  end.

(** [s.find(c)]: [None] stands for -1. *)
Fixpoint find_char (c : N) (s : str) : option nat :=
  match s with
  | [] => None
  | x :: t => if x =? c then Some 0%nat
              else match find_char c t with Some n => Some (S n) | None => None end
  end.

(** [sep.join(parts)] *)
Fixpoint join (sep : str) (parts : list str) : str :=
  match parts with
  | [] => []
  | [p] => p
  | p :: ps => p ++ sep ++ join sep ps
  end.

Definition replace_char (a b : N) (s : str) : str :=
  map (fun c => if c =? a then b else c) s.

(** [str.lower()] on ASCII letters; other code points unchanged. *)
Definition lower1 (c : N) : N := if (65 <=? c) && (c <=? 90) then c + 32 else c.
Definition lower (s : str) : str := map lower1 s.

Fixpoint drop_while (f : N -> bool) (s : str) : str :=
  match s with
  | [] => []
  | c :: t => if f c then drop_while f t else s
  end.

(** [s.rstrip(chars)] *)
Definition rstrip_by (f : N -> bool) (s : str) : str := rev (drop_while f (rev s)).

Fixpoint range_from (a : N) (n : nat) : str :=
  match n with O => [] | S n' => a :: range_from (a + 1) n' end.

Definition set_minus (a b : str) : str := filter (fun c => negb (mem c b)) a.

(** parse.py:65 *)
Definition C0_CONTROL : str := range_from 0 32.
(** parse.py:67-73 *)
Definition ASCII_UPPER : str := range_from 65 26.
Definition ASCII_LOWER : str := range_from 97 26.
Definition ASCII_ALPHA : str := ASCII_LOWER ++ ASCII_UPPER.
Definition ASCII_DIGITS : str := range_from 48 10.
Definition ASCII_ALPHANUMERIC : str := ASCII_ALPHA ++ ASCII_DIGITS.
Definition ASCII_HEX_DIGITS : str := ASCII_DIGITS ++ range_from 97 6 ++ range_from 65 6.

(** parse.py:75: "\x00\t\x0a\x0d #/:<>?@[\\]^|" *)
Definition FORBIDDEN_HOST_CODE_POINT : str :=
  [0; 9; 10; 13] ++ $" #/:<>?@[\]^|".

(** parse.py:77-79 *)
Definition FORBIDDEN_DOMAIN_CODE_POINT : str :=
  FORBIDDEN_HOST_CODE_POINT ++ C0_CONTROL ++ [37; 127].

(** parse.py:81-111: the "safe" complements of the percent-encode sets. *)
Definition SAFE_C0_CONTROL : str := range_from 32 95.
Definition SAFE_FRAGMENT : str := set_minus SAFE_C0_CONTROL (34 :: $" <>`").
Definition SAFE_QUERY : str := set_minus SAFE_C0_CONTROL (34 :: $" #<>").
Definition SAFE_SPECIAL_QUERY : str := set_minus SAFE_QUERY $"'".
Definition SAFE_PATH : str := set_minus SAFE_QUERY $"?`{}".
Definition SAFE_USERINFO : str := set_minus SAFE_PATH $"/:;=@[\]^|".
Definition SAFE_COMPONENT : str := set_minus SAFE_USERINFO $"$%&+,".
Definition SAFE_URLENCODED : str := set_minus SAFE_COMPONENT $"!'()~".

(** parse.py:113-127 *)
Definition SINGLE_DOT : list str := [$"."; $"%2e"; $"%2E"].
Definition DOUBLE_DOT : list str :=
  [$".."; $".%2e"; $".%2E"; $"%2e."; $"%2E."; $"%2e%2e"; $"%2e%2E"; $"%2E%2e"; $"%2E%2E"].

(** parse.py:129-136 SPECIAL_SCHEMES *)
Definition SPECIAL_SCHEMES : list (str * option N) :=
  [($"ftp", Some 21); ($"file", None); ($"http", Some 80); ($"https", Some 443);
   ($"ws", Some 80); ($"wss", Some 443)].

(** [scheme in SPECIAL_SCHEMES] *)
Definition special_scheme (s : str) : bool := str_in s (map fst SPECIAL_SCHEMES).

(** [SPECIAL_SCHEMES.get(scheme)]; [None] both for a missing key and for "file". *)
Definition default_port (s : str) : option N :=
  match find (fun p => str_eqb s (fst p)) SPECIAL_SCHEMES with
  | Some p => snd p
  | None => None
  end.

(** parse.py:138-142 *)
Definition UTF_CODECS : list str :=
  [$"utf_8"; $"u8"; $"utf"; $"utf8"; $"cp65001";
   $"utf_16_be"; $"utf-16be"; $"utf-16-be"; $"utf_16_le"; $"utf-16le"; $"utf-16-le"].

(** parse.py:227-228 [is_windows_drive_letter] *)
Definition is_windows_drive_letter (t : str) : bool :=
  match t with
  | [a; b] => mem a ASCII_ALPHA && mem b $":|"
  | _ => false
  end.

(** parse.py:182-183 [is_normalized_windows_drive_letter] *)
Definition is_normalized_windows_drive_letter (t : str) : bool :=
  is_windows_drive_letter t && match t with [_; b] => b =? 58 | _ => false end.

(** parse.py:281-286 [starts_with_windows_drive_letter] *)
Definition starts_with_windows_drive_letter (t : str) : bool :=
  (2 <=? length t)%nat && is_windows_drive_letter (firstn 2 t)
  && ((length t =? 2)%nat || match nth_error t 2 with Some c => mem c $"/\?#" | None => false end).

(** parse.py:186-211 [is_url_code_points], one code point.
    [including]/[excluding] are [[]] when the Python argument is None. *)
Definition noncharacter (c : N) : bool :=
  ((64976 <=? c) && (c <=? 65007)) || (65534 <=? N.land c 65535).
Definition is_url_cp (including excluding : str) (c : N) : bool :=
  negb (mem c excluding)
  && (mem c ASCII_ALPHANUMERIC
      || mem c $"!$&'()*+,-./:;=?@_~"
      || mem c including
      || ((160 <=? c) && (c <=? 1114109)
          && negb ((55296 <=? c) && (c <=? 56319))
          && negb ((56320 <=? c) && (c <=? 57343))
          && negb (noncharacter c))).

(** parse.py:186-211: returns the first offending code point. *)
Fixpoint is_url_code_points (including excluding s : str) : option N :=
  match s with
  | [] => None
  | c :: t => if is_url_cp including excluding c then is_url_code_points including excluding t
              else Some c
  end.

(** [[m.group() for m in PERCENT_RE.finditer(s)]] with PERCENT_RE = "%[^%]*"
    (parse.py:61, 220): the pieces after each '%', each with its '%'. *)
Definition percent_parts (s : str) : list str :=
  map (fun p => 37 :: p) (tl (split 37 s)).

(** [any(c not in ASCII_HEX_DIGITS for c in part[1:3])] or too short
    (parse.py:222). *)
Definition bad_percent_part (part : str) : bool :=
  (length part <? 3)%nat || existsb (fun c => negb (mem c ASCII_HEX_DIGITS)) (firstn 2 (skipn 1 part)).

(** parse.py:214-224 [is_url_units]: [None] is valid, [Some x] is the
    offending text returned as the second component. *)
Definition is_url_units (including excluding s : str) : option str :=
  match is_url_code_points including excluding s with
  | Some c => Some [c]
  | None => match find bad_percent_part (percent_parts s) with
            | Some p => Some (firstn 3 p)
            | None => None
            end
  end.
