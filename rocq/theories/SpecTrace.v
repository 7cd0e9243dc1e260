(** The transitions between the states of the basic URL parser of the URL Standard that are visible in
    the debug output. Two of the standard's states are one here: "scheme start" and "scheme". A state that
    ends the parser at the end of the input goes to [EOF]; "path" goes there by way of "opaque path", and
    "query" by way of "fragment". *)
From Coq Require Import Ascii String.
From Coq Require Import NArith Bool Arith List.
From Verif Require Import PyStr Env HostModel UrlRecord Parser.
Import ListNotations.

(** without a state override *)
Definition successors (st : pstate) : list pstate :=
  match st with
  | SCHEME_START => [NO_SCHEME; FILE; SPECIAL_RELATIVE_OR_AUTHORITY; SPECIAL_AUTHORITY_SLASHES; PATH_OR_AUTHORITY; OPAQUE_PATH]
  | NO_SCHEME => [FRAGMENT; RELATIVE; FILE]
  | SPECIAL_RELATIVE_OR_AUTHORITY => [SPECIAL_AUTHORITY_IGNORE_SLASHES; RELATIVE]
  | PATH_OR_AUTHORITY => [AUTHORITY; PATH]
  | RELATIVE => [RELATIVE_SLASH; QUERY; FRAGMENT; PATH; EOF]
  | RELATIVE_SLASH => [SPECIAL_AUTHORITY_IGNORE_SLASHES; AUTHORITY; PATH]
  | SPECIAL_AUTHORITY_SLASHES => [SPECIAL_AUTHORITY_IGNORE_SLASHES]
  | SPECIAL_AUTHORITY_IGNORE_SLASHES => [AUTHORITY]
  | AUTHORITY => [HOST]
  | HOST => [PORT; PATH_START]
  | PORT => [PATH_START]
  | FILE => [FILE_SLASH; QUERY; FRAGMENT; PATH]
  | FILE_SLASH => [FILE_HOST; PATH]
  | FILE_HOST => [PATH; PATH_START]
  | PATH_START => [PATH; QUERY; FRAGMENT; EOF]
  | PATH => [QUERY; FRAGMENT; OPAQUE_PATH]
  | OPAQUE_PATH => [QUERY; FRAGMENT; EOF]
  | QUERY => [FRAGMENT]
  | FRAGMENT => [EOF]
  | SCHEME | HOSTNAME | EOF => []
  end.
(** with the override of a setter *)
Definition override_successors (st : pstate) : list pstate :=
  match st with
  | SCHEME_START => [EOF]
  | HOST => [FILE_HOST; PORT; EOF]
  | HOSTNAME => [FILE_HOST; EOF]
  | FILE_HOST | PORT | FRAGMENT | OPAQUE_PATH => [EOF]
  | PATH_START => [PATH; EOF]
  | PATH => [OPAQUE_PATH]
  | QUERY => [FRAGMENT]
  | _ => []
  end.

(** the overrides that the setters use *)
Definition setter_states : list pstate := [SCHEME_START; HOST; HOSTNAME; PORT; PATH_START; QUERY; FRAGMENT].

(** [l]: the (state before, state after, index) of the debug records of a run that is in state [st] at
    index [i]; [n] is the length of the input *)
Inductive chain (succ : pstate -> list pstate) (n : nat) : pstate -> nat -> list (pstate * pstate * nat) -> Prop :=
| chain_nil st i : chain succ n st i []
| chain_cons st i next j l : In next (succ st) -> (i <= j <= n)%nat -> chain succ n next j l -> chain succ n st i ((st, next, j) :: l).
Definition last_state (st : pstate) (l : list (pstate * pstate * nat)) : pstate :=
  fold_left (fun _ r => snd (fst r)) l st.

(** The states in the order of the enumeration, with the names that the standard has for them. *)
Definition standard_states : list (pstate * list N) :=
  [(AUTHORITY, $"authority");
   (FILE_HOST, $"file host");
   (FILE_SLASH, $"file slash");
   (FILE, $"file");
   (FRAGMENT, $"fragment");
   (HOSTNAME, $"hostname");
   (HOST, $"host");
   (NO_SCHEME, $"no scheme");
   (OPAQUE_PATH, $"opaque path");
   (PATH_OR_AUTHORITY, $"path or authority");
   (PATH_START, $"path start");
   (PATH, $"path");
   (PORT, $"port");
   (QUERY, $"query");
   (RELATIVE_SLASH, $"relative slash");
   (RELATIVE, $"relative");
   (SCHEME_START, $"scheme start");
   (SCHEME, $"scheme");
   (SPECIAL_AUTHORITY_IGNORE_SLASHES, $"special authority ignore slashes");
   (SPECIAL_AUTHORITY_SLASHES, $"special authority slashes");
   (SPECIAL_RELATIVE_OR_AUTHORITY, $"special relative or authority")].
(** the name in the code: "no scheme" state is NO_SCHEME_STATE *)
Definition constant_name (s : list N) : list N :=
  map (fun c => if (c =? 32)%N then 95%N else if (97 <=? c)%N then (c - 32)%N else c) (s ++ $" state").
