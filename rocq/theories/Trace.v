(** The debug output of the parser: _Logger (parse.py:555-579), the names of the states
    (2839-2863) and the log.debug call at the end of each iteration of the loop (4310-4321). *)
From Coq Require Import Ascii String.
From Coq Require Import NArith ZArith Bool Arith List.
From Verif Require Import PyStr PyInt Codec Env HostModel UrlRecord Parser Repr Message MsgHost MsgParser.
Import ListNotations.
Open Scope N_scope.

(** one log call of any kind; [Step] has the arguments of log.debug that change *)
Inductive event := Note (en : entry) | Step (prev next : pstate) (index : nat) (u : urlrec).

Section Trace.
Context (X : menv).
Local Notation E := (m_env X).

(** parse.py:4198-4321 *)
Fixpoint t_run (fuel : nat) (base : option urlrec) (encoding : str) (so : option pstate)
    (st : pstate) (urlstring : str) (index : nat) (u : urlrec) : list event * (urlrec * mres unit) :=
  match st with
  | EOF => ([], (u, MOk tt))
  | _ =>
      match fuel with
      | O => ([], (u, MErr EFuel None))
      | S f =>
          match m_step X base encoding so st urlstring index u with
          | (l, (u', MErr e t)) => (map Note l, (u', MErr e t))
          | (l, (u', MOk r)) =>
              let (l', res) := t_run f base encoding so (fst r) urlstring (snd r) u' in
              (map Note l ++ Step st (fst r) (snd r) u' :: l', res)
          end
      end
  end.
Definition t_cleaned (note : bool) (msg : str) (s : str) (k : list event * (urlrec * mres unit)) (u : urlrec)
  : list event * (urlrec * mres unit) :=
  if note then
    match noted X INFO msg [PStr s] with
    | (l, MErr e t) => (map Note l, (u, MErr e t))
    | (l, MOk _) => (map Note l ++ fst k, snd k)
    end
  else k.
(** parse.py:4185-4322 *)
Definition t_parse_into (s : str) (base : option urlrec) (encoding : str) (so : option pstate) (u : urlrec)
  : list event * (urlrec * mres unit) :=
  t_cleaned (existsb is_tab_newline s) $"invalid-URL-unit: remove all ASCII tab or newline from %r" s
    (t_run FSM_FUEL base (normalize_encoding E encoding) so
       (match so with Some st => st | None => SCHEME_START end) (remove_tabs s) 0 u) u.
(** parse.py:4170-4183 *)
Definition t_parse_new (s : str) (base : option urlrec) (encoding : str) : list event * mres urlrec :=
  match t_cleaned (needs_strip s) $"invalid-URL-unit: remove any leading and trailing C0 control or space from %r" s
          (t_parse_into (strip_c0 s) base encoding None new_url) new_url with
  | (l, (u, MOk _)) => (l, MOk u)
  | (l, (_, MErr e t)) => (l, MErr e t)
  end.
(** parse.py:4325-4361 *)
Definition t_parse_url (s : str) (base : base_arg) (encoding : str) : list event * mres urlrec :=
  match base with
  | BNone => t_parse_new s None encoding
  | BRec b => t_parse_new s (Some b) encoding
  | BStr bs =>
      match t_parse_new bs None encoding with
      | (l, MErr e t) => (l, MErr e t)
      | (l, MOk b) => let (l', r) := t_parse_new s (Some b) encoding in (l ++ l', r)
      end
  end.

(** repr() of a member of the IntEnum (parse.py:2839-2863) *)
Definition state_repr (st : pstate) : str :=
  let '(name, value) :=
    match st with
    | EOF => ($"EOF", $"-1") | AUTHORITY => ($"AUTHORITY_STATE", $"1") | FILE_HOST => ($"FILE_HOST_STATE", $"2")
    | FILE_SLASH => ($"FILE_SLASH_STATE", $"3") | FILE => ($"FILE_STATE", $"4") | FRAGMENT => ($"FRAGMENT_STATE", $"5")
    | HOSTNAME => ($"HOSTNAME_STATE", $"6") | HOST => ($"HOST_STATE", $"7") | NO_SCHEME => ($"NO_SCHEME_STATE", $"8")
    | OPAQUE_PATH => ($"OPAQUE_PATH_STATE", $"9") | PATH_OR_AUTHORITY => ($"PATH_OR_AUTHORITY_STATE", $"10")
    | PATH_START => ($"PATH_START_STATE", $"11") | PATH => ($"PATH_STATE", $"12") | PORT => ($"PORT_STATE", $"13")
    | QUERY => ($"QUERY_STATE", $"14") | RELATIVE_SLASH => ($"RELATIVE_SLASH_STATE", $"15") | RELATIVE => ($"RELATIVE_STATE", $"16")
    | SCHEME_START => ($"SCHEME_START_STATE", $"17") | SCHEME => ($"SCHEME_STATE", $"18")
    | SPECIAL_AUTHORITY_IGNORE_SLASHES => ($"SPECIAL_AUTHORITY_IGNORE_SLASHES_STATE", $"19")
    | SPECIAL_AUTHORITY_SLASHES => ($"SPECIAL_AUTHORITY_SLASHES_STATE", $"20")
    | SPECIAL_RELATIVE_OR_AUTHORITY => ($"SPECIAL_RELATIVE_OR_AUTHORITY_STATE", $"21")
    end in
  $"<URLParserState." ++ name ++ $": " ++ value ++ $">".
(** parse.py:4310-4321: the text. [%r] of the objects other than strings is written as [%s] of their repr. *)
Definition step_text (urlstring : str) (base : option urlrec) (so : option pstate) (prev next : pstate) (index : nat) (u : urlrec) : res str :=
  match (match base with None => Ok $"None" | Some b => record_repr E (m_print X) b end), record_repr E (m_print X) u with
  | Ok b, Ok r =>
      py_mod X ($"input=%r, base=%s, state_override=%s, state=%s " ++ [8594] ++ $" %s, index=%d, url=%s")
        [PStr urlstring; PStr b; PStr (match so with None => $"None" | Some st => state_repr st end);
         PStr (state_repr prev); PStr (state_repr next); PInt (N.of_nat index); PStr r]
  | Err e, _ => Err e
  | _, Err e => Err e
  end.

(** parse.py:555-579: what a ValidityState gets; log.debug only looks at [disable_logging] *)
Definition recorded (l : list event) : list entry :=
  flat_map (fun ev => match ev with Note en => [en] | Step _ _ _ _ => [] end) l.
(** (state before, state after, index) of the debug records *)
Definition steps (l : list event) : list (pstate * pstate * nat) :=
  flat_map (fun ev => match ev with Note _ => [] | Step a b i _ => [(a, b, i)] end) l.
(** the URL record of the last debug record *)
Definition last_url (u : urlrec) (l : list event) : urlrec :=
  fold_left (fun v ev => match ev with Note _ => v | Step _ _ _ w => w end) l u.
End Trace.
