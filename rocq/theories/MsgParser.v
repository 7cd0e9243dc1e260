(** BasicURLParser and parse_url (parse.py:3061-4361) once more, with the texts of the log calls and of
    the exceptions, and with absolute indices: every [_parse_*] function gets the whole [urlstring] and
    [start] and returns the next state and index, as in the source. (Parser.v has the remaining input
    and offsets; MsgProofs.v proves that the two agree.) Actions without log call are shared. *)
From Coq Require Import Ascii String.
From Coq Require Import NArith ZArith Bool Arith List.
From Verif Require Import PyStr PyInt Codec Env HostModel UrlRecord Parser Repr Message MsgHost.
Import ListNotations.
Open Scope N_scope.

(** [s[a:b]] and [s[a:]], for 0 <= a *)
Definition slice (a b : nat) (s : str) : str := firstn (b - a) (skipn a s).
Definition from (a : nat) (s : str) : str := skipn a s.

Section Parser.
Context (X : menv).
Local Notation E := (m_env X).

Definition note_solidus (urlstring : str) (pos : nat) : MM unit :=
  mm_note X $"invalid-reverse-solidus: URL has a special scheme and it uses U+005C (\) instead of U+002F (/): %r at position %d"
    [PStr urlstring; PInt (N.of_nat pos)].

(** parse.py:3295-3323, 3465-3494, 3567-3596, 3754-3782; [index] is already behind [c] *)
Definition m_check_unit (urlstring : str) (index : nat) (c : N) : MM unit :=
  mm_when (negb (is_url_cp [] [] c) && negb (c =? 37))
    (mm_note X $"invalid-URL-unit: code point is found that is not a URL unit: U+%04X (%s) in %r at position %d"
       [PInt c; PStr (shown_char c); PStr urlstring; PInt (N.of_nat (index - 1))]) >m
  mm_when ((c =? 37) && ((length (from index urlstring) <? 2)%nat
                         || existsb (fun x => negb (mem x ASCII_HEX_DIGITS)) (slice index (index + 2) urlstring)))
    (mm_note X $"invalid-URL-unit: incorrect percent encoding is found: %r in %r at position %d"
       [PStr (slice (index - 1) (index + 2) urlstring); PStr urlstring; PInt (N.of_nat (index - 1))]).

(** parse.py:3067-3131 [_parse_authority] *)
Definition m_authority_end (urlstring : str) (index : nat) (buffer : str) (at_sign_seen : bool) : MM nat :=
  if at_sign_seen && (length buffer =? 0)%nat then
    mm_fail X $"invalid-credentials: credentials are empty: %r" [PStr urlstring]
      EURLParse $"credentials are empty: %r" [PStr urlstring]
  else mm_ret (index - (length buffer + 1))%nat.
Fixpoint m_authority_loop (urlstring rest : str) (index : nat) (buffer : str)
    (at_sign_seen password_token_seen : bool) : MM nat :=
  match rest with
  | [] => m_authority_end urlstring (index + 1) buffer at_sign_seen
  | c :: t =>
      let index := (index + 1)%nat in
      if c =? 64 then
        mm_note X $"invalid-credentials: input includes credentials: %r at position %d"
          [PStr urlstring; PInt (N.of_nat (index - 1))] >m
        (let buffer := if at_sign_seen then $"%40" ++ buffer else buffer in
         let '(user, pass, seen) :=
           if password_token_seen then ([], buffer, true) else find_colon_split buffer in
         mm_when (negb (length user =? 0)%nat)
           (mm_set (fun u => set_username (username u ++ utf8_percent_encode user SAFE_USERINFO false) u)) >m
         mm_when (negb (length pass =? 0)%nat)
           (mm_set (fun u => set_password (password u ++ utf8_percent_encode pass SAFE_USERINFO false) u)) >m
         m_authority_loop urlstring t index [] true seen)
      else
        u <m mm_get ;;
        if mem c $"/?#" || (is_special u && (c =? 92))
        then m_authority_end urlstring index buffer at_sign_seen
        else m_authority_loop urlstring t index (buffer ++ [c]) at_sign_seen password_token_seen
  end.
Definition m_parse_authority (urlstring : str) (start : nat) : MM (pstate * nat) :=
  k <m m_authority_loop urlstring (from start urlstring) start [] false false ;; mm_ret (HOST, k).

(** parse.py:3133-3189 [_parse_file] *)
Definition m_parse_file (urlstring : str) (start : nat) (base : option urlrec) : MM (pstate * nat) :=
  mm_set (set_scheme $"file") >m
  mm_set (set_host (Some (HStr []))) >m
  (let c := cur (slice start (start + 1) urlstring) in
   let index := (start + 1)%nat in
   if iscp c $"/\" then
     mm_when (isc c 92) (note_solidus urlstring (index - 1)) >m mm_ret (FILE_SLASH, index)
   else
     match base with
     | Some b =>
         if str_eqb (scheme b) $"file" then
           mm_set (set_host (uhost b)) >m
           mm_set (set_path (path b)) >m
           mm_set (set_query (query b)) >m
           (if isc c 63 then mm_set (set_query (Some [])) >m mm_ret (QUERY, index)
            else if isc c 35 then mm_set (set_fragment (Some [])) >m mm_ret (FRAGMENT, index)
            else if negb (iseof c) then
              mm_set (set_query None) >m
              (if negb (starts_with_windows_drive_letter (from (index - 1) urlstring))
               then act shorten_path
               else
                 mm_note X ($"file-invalid-Windows-drive-letter: input is a relative-URL string that starts with a Windows drive letter and the base URL" ++ apos ++ $"s scheme is 'file': %r in %r at position %d")
                   [PStr (slice (index - 1) (index + 1) urlstring); PStr urlstring; PInt (N.of_nat (index - 1))] >m
                 mm_set (set_path (PList []))) >m
              mm_ret (PATH, (index - 1)%nat)
            else mm_ret (PATH, (index - 1)%nat))
         else mm_ret (PATH, (index - 1)%nat)
     | None => mm_ret (PATH, (index - 1)%nat)
     end).

(** parse.py:3191-3237 [_parse_file_host]; [index] is already reset to the position of [c] *)
Definition m_file_host_end (so : option pstate) (urlstring : str) (index : nat) (buffer : str)
  : MM (pstate * nat) :=
  if negb (overridden so) && is_windows_drive_letter buffer then
    mm_note X ($"file-invalid-Windows-drive-letter-host: 'file:' URL" ++ apos ++ $"s host is a Windows drive letter: %r in %r at position %d")
      [PStr buffer; PStr urlstring; PInt (N.of_nat (index - length buffer))] >m
    mm_ret (PATH, (index - length buffer)%nat)
  else match buffer with
       | [] => mm_set (set_host (Some (HStr []))) >m
               (if overridden so then mm_ret (EOF, index) else mm_ret (PATH_START, index))
       | _ =>
           u <m mm_get ;;
           h <m mm_lift (m_host_parse X buffer (is_not_special u)) ;;
           let h := match h with
                    | HStr s => if str_eqb s $"localhost" then HStr [] else h
                    | _ => h
                    end in
           mm_set (set_host (Some h)) >m
           (if overridden so then mm_ret (EOF, index) else mm_ret (PATH_START, index))
       end.
Fixpoint m_file_host_loop (so : option pstate) (urlstring rest : str) (index : nat) (buffer : str)
  : MM (pstate * nat) :=
  match rest with
  | [] => m_file_host_end so urlstring index buffer
  | c :: t => if mem c $"/\?#" then m_file_host_end so urlstring index buffer
              else m_file_host_loop so urlstring t (index + 1) (buffer ++ [c])
  end.
Definition m_parse_file_host (urlstring : str) (start : nat) (so : option pstate) : MM (pstate * nat) :=
  m_file_host_loop so urlstring (from start urlstring) start [].

(** parse.py:3239-3275 [_parse_file_slash] *)
Definition m_parse_file_slash (urlstring : str) (start : nat) (base : option urlrec) : MM (pstate * nat) :=
  let c := cur (slice start (start + 1) urlstring) in
  let index := (start + 1)%nat in
  if iscp c $"/\" then
    mm_when (isc c 92) (note_solidus urlstring (index - 1)) >m mm_ret (FILE_HOST, index)
  else
    match base with
    | Some b =>
        if str_eqb (scheme b) $"file" then
          mm_set (set_host (uhost b)) >m
          match path b with
          | PList (s :: _) =>
              mm_when (negb (starts_with_windows_drive_letter (from (index - 1) urlstring))
                       && is_normalized_windows_drive_letter s)
                (u <m mm_get ;; match path u with POpaque _ => mm_exc EAssert | PList _ => act (path_append s) end)
          | _ => mm_ret tt
          end >m
          mm_ret (PATH, (index - 1)%nat)
        else mm_ret (PATH, (index - 1)%nat)
    | None => mm_ret (PATH, (index - 1)%nat)
    end.

(** parse.py:3277-3330 [_parse_fragment] *)
Fixpoint m_fragment_loop (urlstring rest : str) (index : nat) (buffer : str) : MM (pstate * nat) :=
  match rest with
  | [] => mm_when (negb (length buffer =? 0)%nat)
            (act (fragment_append (utf8_percent_encode buffer SAFE_FRAGMENT false))) >m
          mm_ret (EOF, index)
  | c :: t => m_check_unit urlstring (index + 1) c >m m_fragment_loop urlstring t (index + 1) (buffer ++ [c])
  end.
Definition m_parse_fragment (urlstring : str) (start : nat) : MM (pstate * nat) :=
  m_fragment_loop urlstring (from start urlstring) start [].

(** parse.py:3332-3400 [_parse_host]; in [m_host_end] [index] is reset to the position of [c] *)
Definition m_host_end (so : option pstate) (urlstring : str) (index : nat) (buffer : str) : MM (pstate * nat) :=
  u <m mm_get ;;
  if is_special u && (length buffer =? 0)%nat then
    mm_fail X $"host-missing: input has a special scheme, but does not contain a host: %r" [PStr urlstring]
      EURLParse $"input has a special scheme, but does not contain a host: %r" [PStr urlstring]
  else if overridden so && (length buffer =? 0)%nat
          && (includes_credentials u || port_truthy (port u))
  then mm_ret (EOF, index)
  else
    h <m mm_lift (m_host_parse X buffer (is_not_special u)) ;;
    mm_set (set_host (Some h)) >m
    (if overridden so then mm_ret (EOF, index) else mm_ret (PATH_START, index)).
Fixpoint m_host_loop (so : option pstate) (urlstring rest : str) (index : nat) (buffer : str)
    (inside_brackets : bool) : MM (pstate * nat) :=
  match rest with
  | [] => m_host_end so urlstring index buffer
  | c :: t =>
      u <m mm_get ;;
      if (c =? 58) && negb inside_brackets then
        if (length buffer =? 0)%nat then
          mm_fail X $"host-missing: input does not contain a host: %r" [PStr urlstring]
            EURLParse $"input does not contain a host: %r" [PStr urlstring]
        else if is_hostname_override so then mm_ret (EOF, index)
        else
          h <m mm_lift (m_host_parse X buffer (is_not_special u)) ;;
          mm_set (set_host (Some h)) >m
          mm_ret (PORT, (index + 1)%nat)
      else if mem c $"/?#" || (is_special u && (c =? 92)) then m_host_end so urlstring index buffer
      else m_host_loop so urlstring t (index + 1) (buffer ++ [c])
             (if c =? 91 then true else if c =? 93 then false else inside_brackets)
  end.
Definition m_parse_host (urlstring : str) (start : nat) (so : option pstate) : MM (pstate * nat) :=
  u <m mm_get ;;
  if overridden so && str_eqb (scheme u) $"file" then mm_ret (FILE_HOST, start)
  else m_host_loop so urlstring (from start urlstring) start [] false.

(** parse.py:3402-3442 [_parse_no_scheme] *)
Definition m_missing_scheme {A} (urlstring : str) (base : option urlrec) : MM A :=
  let args := [PStr urlstring; match base with Some b => PStr (href b) | None => PNone end] in
  let text := $"input is missing a scheme, because it does not begin with an ASCII alpha, and either no base URL was provided or the base URL cannot be used as a base URL because it has an opaque path: input=%r base=%r" in
  mm_fail X ($"missing-scheme-non-relative-URL: " ++ text) args EURLParse text args.
Definition m_parse_no_scheme (urlstring : str) (start : nat) (base : option urlrec) : MM (pstate * nat) :=
  let c := cur (slice start (start + 1) urlstring) in
  let index := (start + 1)%nat in
  match base with
  | None => m_missing_scheme urlstring base
  | Some b =>
      if has_opaque_path b && negb (isc c 35) then m_missing_scheme urlstring base
      else if has_opaque_path b && isc c 35 then
        mm_set (set_scheme (scheme b)) >m
        mm_set (set_path (path b)) >m
        mm_set (set_query (query b)) >m
        mm_set (set_fragment (Some [])) >m
        mm_ret (FRAGMENT, index)
      else if negb (str_eqb (scheme b) $"file") then mm_ret (RELATIVE, (index - 1)%nat)
      else mm_ret (FILE, (index - 1)%nat)
  end.

(** parse.py:3444-3502 [_parse_opaque_path] *)
Fixpoint m_opaque_path_loop (urlstring rest : str) (index : nat) : MM (pstate * nat) :=
  match rest with
  | [] => mm_ret (EOF, index)
  | c :: t =>
      if c =? 63 then mm_set (set_query (Some [])) >m mm_ret (QUERY, (index + 1)%nat)
      else if c =? 35 then mm_set (set_fragment (Some [])) >m mm_ret (FRAGMENT, (index + 1)%nat)
      else
        m_check_unit urlstring (index + 1) c >m
        act (path_extend (utf8_percent_encode [c] SAFE_C0_CONTROL false)) >m
        m_opaque_path_loop urlstring t (index + 1)
  end.
Definition m_parse_opaque_path (urlstring : str) (start : nat) : MM (pstate * nat) :=
  m_opaque_path_loop urlstring (from start urlstring) start.

(** parse.py:3504-3597 [_parse_path] *)
Fixpoint m_path_loop (so : option pstate) (urlstring rest : str) (index : nat) (buffer : str) : MM (pstate * nat) :=
  match rest with
  | [] => act (path_flush None buffer) >m mm_ret (OPAQUE_PATH, index)
  | c :: t =>
      u <m mm_get ;;
      if (c =? 47) || (is_special u && (c =? 92)) || (negb (overridden so) && mem c $"?#")
      then
        mm_when (is_special u && (c =? 92)) (note_solidus urlstring (index + 1 - 1)) >m
        act (path_flush (Some c) buffer) >m
        (if c =? 63 then mm_set (set_query (Some [])) >m mm_ret (QUERY, (index + 1)%nat)
         else if c =? 35 then mm_set (set_fragment (Some [])) >m mm_ret (FRAGMENT, (index + 1)%nat)
         else m_path_loop so urlstring t (index + 1) [])
      else m_check_unit urlstring (index + 1) c >m m_path_loop so urlstring t (index + 1) (buffer ++ [c])
  end.
Definition m_parse_path (urlstring : str) (start : nat) (so : option pstate) : MM (pstate * nat) :=
  m_path_loop so urlstring (from start urlstring) start [].

(** parse.py:3599-3615 [_parse_path_or_authority] *)
Definition m_parse_path_or_authority (urlstring : str) (start : nat) : MM (pstate * nat) :=
  let index := (start + 1)%nat in
  if isc (cur (slice start (start + 1) urlstring)) 47 then mm_ret (AUTHORITY, index) else mm_ret (PATH, (index - 1)%nat).

(** parse.py:3617-3658 [_parse_path_start] *)
Definition m_parse_path_start (urlstring : str) (start : nat) (so : option pstate) : MM (pstate * nat) :=
  let c := cur (slice start (start + 1) urlstring) in
  let index := (start + 1)%nat in
  u <m mm_get ;;
  if is_special u then
    mm_when (isc c 92) (note_solidus urlstring (index - 1)) >m
    mm_ret (PATH, if negb (iscp c $"/\") then (index - 1)%nat else index)
  else if negb (overridden so) && isc c 63 then
    mm_set (set_query (Some [])) >m mm_ret (QUERY, index)
  else if negb (overridden so) && isc c 35 then
    mm_set (set_fragment (Some [])) >m mm_ret (FRAGMENT, index)
  else if negb (iseof c) then mm_ret (PATH, if negb (isc c 47) then (index - 1)%nat else index)
  else
    mm_when (overridden so && match uhost u with None => true | Some _ => false end) (act (path_append [])) >m
    mm_ret (EOF, (index - 1)%nat).

(** parse.py:3660-3711 [_parse_port]; [index] is the position of [c] *)
Definition m_port_end (so : option pstate) (urlstring : str) (index : nat) (buffer : str) : MM (pstate * nat) :=
  (match buffer with
   | [] => mm_ret tt
   | _ =>
       match e_int E buffer 10 with
       | None => mm_exc EValue
       | Some z =>
           let p := Z.to_N z in
           if 65535 <? p then
             mm_fail X ($"port-out-of-range: input" ++ apos ++ $"s port is too big: %d in %r") [PInt p; PStr urlstring]
               EURLParse ($"input" ++ apos ++ $"s port is too big: %s in %r") [PInt p; PStr urlstring]
           else
             u <m mm_get ;;
             if on_eqb (default_port (scheme u)) (Some p)
             then mm_set (set_port None) else mm_set (set_port (Some p))
       end
   end) >m
  (if overridden so then mm_ret (EOF, index) else mm_ret (PATH_START, index)).
Fixpoint m_port_loop (so : option pstate) (urlstring rest : str) (index : nat) (buffer : str)
  : MM (pstate * nat) :=
  match rest with
  | [] => m_port_end so urlstring index buffer
  | c :: t =>
      if mem c ASCII_DIGITS then m_port_loop so urlstring t (index + 1) (buffer ++ [c])
      else
        u <m mm_get ;;
        if mem c $"/?#" || (is_special u && (c =? 92)) || overridden so
        then m_port_end so urlstring index buffer
        else mm_fail X ($"port-invalid: input" ++ apos ++ $"s port is invalid: %r") [PStr urlstring]
               EURLParse ($"input" ++ apos ++ $"s port is invalid: %r") [PStr urlstring]
  end.
Definition m_parse_port (urlstring : str) (start : nat) (so : option pstate) : MM (pstate * nat) :=
  m_port_loop so urlstring (from start urlstring) start [].

(** parse.py:3713-3783 [_parse_query] *)
Fixpoint m_query_loop (so : option pstate) (encoding urlstring rest : str) (index : nat) (buffer : str)
  : MM (pstate * nat) :=
  match rest with
  | [] => mm_when (negb (length buffer =? 0)%nat) (act (query_flush E encoding buffer)) >m mm_ret (FRAGMENT, index)
  | c :: t =>
      if negb (overridden so) && (c =? 35) then
        act (query_flush E encoding buffer) >m mm_set (set_fragment (Some [])) >m mm_ret (FRAGMENT, (index + 1)%nat)
      else m_check_unit urlstring (index + 1) c >m m_query_loop so encoding urlstring t (index + 1) (buffer ++ [c])
  end.
Definition m_parse_query (urlstring : str) (start : nat) (so : option pstate) (encoding : str)
  : MM (pstate * nat) := m_query_loop so encoding urlstring (from start urlstring) start [].

(** parse.py:3785-3830 [_parse_relative] *)
Definition m_parse_relative (urlstring : str) (start : nat) (base : option urlrec) : MM (pstate * nat) :=
  match base with
  | None => mm_exc EAssert
  | Some b =>
      if str_eqb (scheme b) $"file" then mm_exc EAssert
      else
        mm_set (set_scheme (scheme b)) >m
        (let c := cur (slice start (start + 1) urlstring) in
         let index := (start + 1)%nat in
         u <m mm_get ;;
         if isc c 47 then mm_ret (RELATIVE_SLASH, index)
         else if is_special u && isc c 92 then
           note_solidus urlstring (index - 1) >m mm_ret (RELATIVE_SLASH, index)
         else
           mm_set (set_username (username b)) >m
           mm_set (set_password (password b)) >m
           mm_set (set_host (uhost b)) >m
           mm_set (set_port (port b)) >m
           mm_set (set_path (path b)) >m
           mm_set (set_query (query b)) >m
           (if isc c 63 then mm_set (set_query (Some [])) >m mm_ret (QUERY, index)
            else if isc c 35 then mm_set (set_fragment (Some [])) >m mm_ret (FRAGMENT, index)
            else if negb (iseof c) then
              mm_set (set_query None) >m act shorten_path >m mm_ret (PATH, (index - 1)%nat)
            else mm_ret (EOF, (index - 1)%nat)))
  end.

(** parse.py:3832-3867 [_parse_relative_slash] *)
Definition m_parse_relative_slash (urlstring : str) (start : nat) (base : option urlrec) : MM (pstate * nat) :=
  let c := cur (slice start (start + 1) urlstring) in
  let index := (start + 1)%nat in
  u <m mm_get ;;
  if is_special u && iscp c $"/\" then
    mm_when (isc c 92) (note_solidus urlstring (index - 1)) >m
    mm_ret (SPECIAL_AUTHORITY_IGNORE_SLASHES, index)
  else if isc c 47 then mm_ret (AUTHORITY, index)
  else
    match base with
    | None => mm_exc EAssert
    | Some b =>
        mm_set (set_username (username b)) >m
        mm_set (set_password (password b)) >m
        mm_set (set_host (uhost b)) >m
        mm_set (set_port (port b)) >m
        mm_ret (PATH, (index - 1)%nat)
    end.

(** parse.py:3869-3961 [_parse_scheme]; in [m_scheme_colon] [index] is behind the ':' *)
Definition missing_solidus : str :=
  $"special-scheme-missing-following-solidus: input" ++ apos ++ $"s scheme is not followed by '//': %r in %r at position %d".
Definition m_scheme_colon (base : option urlrec) (so : option pstate) (urlstring : str) (index : nat) (buffer : str)
  : MM (pstate * nat) :=
  let buffer := lower buffer in
  u <m mm_get ;;
  if overridden so && scheme_blocked u buffer then mm_ret (EOF, index)
  else
    mm_set (set_scheme buffer) >m
    (if overridden so then
       mm_when (port_truthy (port u) && on_eqb (default_port buffer) (port u)) (mm_set (set_port None)) >m
       mm_ret (EOF, index)
     else if str_eqb buffer $"file" then
       mm_when (negb (starts_with $"//" (from index urlstring)))
         (mm_note X missing_solidus [PStr (slice index (index + 2) urlstring); PStr urlstring; PInt (N.of_nat index)]) >m
       mm_ret (FILE, index)
     else if special_scheme buffer
             && match base with Some b => str_eqb (scheme b) buffer | None => false end then
       mm_ret (SPECIAL_RELATIVE_OR_AUTHORITY, index)
     else if special_scheme buffer then mm_ret (SPECIAL_AUTHORITY_SLASHES, index)
     else if starts_with $"/" (from index urlstring) then mm_ret (PATH_OR_AUTHORITY, (index + 1)%nat)
     else mm_set (set_path (POpaque [])) >m mm_ret (OPAQUE_PATH, index)).
Definition m_no_colon {A} (urlstring : str) : MM A :=
  mm_raise X EURLParse ($"input" ++ apos ++ $"s scheme does not end with U+003A (:): %r") [PStr urlstring].
Definition m_no_alpha {A} (urlstring : str) : MM A :=
  mm_raise X EURLParse ($"input" ++ apos ++ $"s scheme does not begin with an ASCII alpha: %r") [PStr urlstring].
Fixpoint m_scheme_loop (base : option urlrec) (so : option pstate) (urlstring : str) (start : nat) (rest : str) (index : nat)
    (buffer : str) : MM (pstate * nat) :=
  match rest with
  | [] => if overridden so then m_no_colon urlstring else mm_ret (NO_SCHEME, start)
  | c :: t =>
      if mem c ASCII_ALPHANUMERIC || mem c $"+-." then m_scheme_loop base so urlstring start t (index + 1) (buffer ++ [c])
      else if c =? 58 then m_scheme_colon base so urlstring (index + 1) buffer
      else if overridden so then m_no_colon urlstring else mm_ret (NO_SCHEME, start)
  end.
Definition m_parse_scheme (urlstring : str) (start : nat) (base : option urlrec) (so : option pstate) : MM (pstate * nat) :=
  let index := (start + 1)%nat in
  match cur (slice start (start + 1) urlstring) with
  | Some c =>
      if mem c ASCII_ALPHA then m_scheme_loop base so urlstring start (from index urlstring) index [c]
      else if overridden so then m_no_alpha urlstring else mm_ret (NO_SCHEME, (index - 1)%nat)
  | None => if overridden so then m_no_alpha urlstring else mm_ret (NO_SCHEME, (index - 1)%nat)
  end.

(** parse.py:3963-3993 [_parse_special_authority_ignore_slashes] *)
Fixpoint m_ignore_slashes_loop (urlstring rest : str) (index : nat) : MM (pstate * nat) :=
  match rest with
  | [] => mm_ret (AUTHORITY, index)
  | c :: t =>
      if mem c $"/\" then
        mm_note X ($"special-scheme-missing-following-solidus: input" ++ apos ++ $"s scheme is not followed by '//': U+%04X (%s) in %r at position %d")
          [PInt c; PStr [c]; PStr urlstring; PInt (N.of_nat (index + 1 - 1))] >m
        m_ignore_slashes_loop urlstring t (index + 1)
      else mm_ret (AUTHORITY, index)
  end.
Definition m_parse_ignore_slashes (urlstring : str) (start : nat) : MM (pstate * nat) :=
  m_ignore_slashes_loop urlstring (from start urlstring) start.

(** parse.py:3995-4055 [_parse_special_authority_slashes], [_parse_special_relative_or_authority] *)
Definition m_special_slashes (next : pstate) (urlstring : str) (start : nat) : MM (pstate * nat) :=
  let c := cur (slice start (start + 1) urlstring) in
  let index := (start + 1)%nat in
  if isc c 47 && starts_with $"/" (from index urlstring) then mm_ret (SPECIAL_AUTHORITY_IGNORE_SLASHES, (index + 1)%nat)
  else
    mm_note X missing_solidus [PStr (slice start (start + 2) urlstring); PStr urlstring; PInt (N.of_nat start)] >m
    mm_ret (next, (index - 1)%nat).

(** parse.py:4198-4305 *)
Definition m_step (base : option urlrec) (encoding : str) (so : option pstate)
    (st : pstate) (urlstring : str) (index : nat) : MM (pstate * nat) :=
  match st with
  | SCHEME_START => m_parse_scheme urlstring index base so
  | NO_SCHEME => m_parse_no_scheme urlstring index base
  | SPECIAL_RELATIVE_OR_AUTHORITY => m_special_slashes RELATIVE urlstring index
  | PATH_OR_AUTHORITY => m_parse_path_or_authority urlstring index
  | RELATIVE => m_parse_relative urlstring index base
  | RELATIVE_SLASH => m_parse_relative_slash urlstring index base
  | SPECIAL_AUTHORITY_SLASHES => m_special_slashes SPECIAL_AUTHORITY_IGNORE_SLASHES urlstring index
  | SPECIAL_AUTHORITY_IGNORE_SLASHES => m_parse_ignore_slashes urlstring index
  | AUTHORITY => m_parse_authority urlstring index
  | HOST | HOSTNAME => m_parse_host urlstring index so
  | PORT => m_parse_port urlstring index so
  | FILE => m_parse_file urlstring index base
  | FILE_SLASH => m_parse_file_slash urlstring index base
  | FILE_HOST => m_parse_file_host urlstring index so
  | PATH_START => m_parse_path_start urlstring index so
  | PATH => m_parse_path urlstring index so
  | OPAQUE_PATH => m_parse_opaque_path urlstring index
  | QUERY => m_parse_query urlstring index so encoding
  | FRAGMENT => m_parse_fragment urlstring index
  | SCHEME => mm_exc ENotImpl
  | EOF => mm_ret (EOF, index)
  end.

(** parse.py:4198-4321 *)
Fixpoint m_run (fuel : nat) (base : option urlrec) (encoding : str) (so : option pstate)
    (st : pstate) (urlstring : str) (index : nat) : MM unit :=
  match st with
  | EOF => mm_ret tt
  | _ =>
      match fuel with
      | O => mm_exc EFuel
      | S f => r <m m_step base encoding so st urlstring index ;; m_run f base encoding so (fst r) urlstring (snd r)
      end
  end.

(** parse.py:4185-4322 *)
Definition m_parse_into (urlstring : str) (base : option urlrec) (encoding : str) (so : option pstate) : MM unit :=
  mm_when (existsb is_tab_newline urlstring)
    (mm_note X $"invalid-URL-unit: remove all ASCII tab or newline from %r" [PStr urlstring]) >m
  m_run FSM_FUEL base (normalize_encoding E encoding) so
    (match so with Some st => st | None => SCHEME_START end) (remove_tabs urlstring) 0.
(** parse.py:4170-4183 *)
Definition m_parse_new (urlstring : str) (base : option urlrec) (encoding : str) : MW urlrec :=
  match ((mm_when (needs_strip urlstring)
            (mm_note X $"invalid-URL-unit: remove any leading and trailing C0 control or space from %r" [PStr urlstring]) >m
          m_parse_into (strip_c0 urlstring) base encoding None) new_url) with
  | (l, (u, MOk _)) => (l, MOk u)
  | (l, (_, MErr e t)) => (l, MErr e t)
  end.
(** parse.py:4325-4361 *)
Definition m_parse_url (urlstring : str) (base : base_arg) (encoding : str) : MW urlrec :=
  b <w (match base with
        | BNone => mw_ret None
        | BRec u => mw_ret (Some u)
        | BStr s => u <w m_parse_new s None encoding ;; mw_ret (Some u)
        end) ;;
  m_parse_new urlstring b encoding.
End Parser.
