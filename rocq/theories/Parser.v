(** The basic URL parser: class BasicURLParser (parse.py:3061-4322) and
    parse_url (4325-4361).

    Every [_parse_*] function reads [urlstring] only through slices that start at
    its argument [start] or later and returns [start + k]. Here it receives
    [rest = urlstring[start:]] and returns the offset [k]; the driver drops [k]
    characters. Loops [for c in cpstream(rest)] are structural recursions whose
    [[]] case is the final EOF iteration; [i] is the number of characters read
    before the current one. Message texts and positions are not modelled; of each
    log call only the error type is kept. *)
From Coq Require Import Ascii String.
From Coq Require Import NArith ZArith Bool Arith List.
From Verif Require Import PyStr PyInt Codec Env HostModel UrlRecord.
Import ListNotations.
Open Scope N_scope.

(** parse.py:2839-2863 *)
Inductive pstate :=
| EOF | AUTHORITY | FILE_HOST | FILE_SLASH | FILE | FRAGMENT | HOSTNAME | HOST | NO_SCHEME
| OPAQUE_PATH | PATH_OR_AUTHORITY | PATH_START | PATH | PORT | QUERY | RELATIVE_SLASH | RELATIVE
| SCHEME_START | SCHEME | SPECIAL_AUTHORITY_IGNORE_SLASHES | SPECIAL_AUTHORITY_SLASHES
| SPECIAL_RELATIVE_OR_AUTHORITY.

(** [urlstring[index : index + 1]] *)
Definition cur (rest : str) : cp := match rest with c :: _ => Some c | [] => None end.

(** the current character when the loop variable is [c] *)
Definition eof_or (c : cp) (chars : str) : bool := iseof c || iscp c chars.

Definition is_hostname_override (so : option pstate) : bool :=
  match so with Some HOSTNAME => true | _ => false end.
Definition overridden (so : option pstate) : bool :=
  match so with Some _ => true | None => false end.

(** The code-point check shared by the fragment, opaque path, path and query
    states (parse.py:3295-3323, 3465-3494, 3567-3596, 3754-3782); [rest] is
    [urlstring[index:]] after [c]. *)
Definition bad_percent (rest : str) : bool :=
  (length rest <? 2)%nat || existsb (fun x => negb (mem x ASCII_HEX_DIGITS)) (firstn 2 rest).
Definition check_unit (c : N) (rest : str) : M unit :=
  when (negb (is_url_cp [] [] c) && negb (c =? 37)) (logm VInvalidURLUnit) ;;
  when ((c =? 37) && bad_percent rest) (logm VInvalidURLUnit).

(** parse.py:3067-3131 [_parse_authority] *)
Definition find_colon_split (buffer : str) : str * str * bool :=
  match find_char 58 buffer with
  | None => (buffer, [], false)
  | Some n => (firstn n buffer, skipn (S n) buffer, true)
  end.
Definition authority_end (i : nat) (buffer : str) (at_sign_seen : bool) : M nat :=
  if at_sign_seen && (length buffer =? 0)%nat then fail VInvalidCredentials EURLParse
  else ret (S i - (length buffer + 1))%nat.
Fixpoint authority_loop (rest : str) (i : nat) (buffer : str)
    (at_sign_seen password_token_seen : bool) : M nat :=
  match rest with
  | [] => authority_end i buffer at_sign_seen
  | c :: t =>
      if c =? 64 then
        logm VInvalidCredentials ;;
        let buffer := if at_sign_seen then $"%40" ++ buffer else buffer in
        let '(user, pass, seen) :=
          if password_token_seen then ([], buffer, true) else find_colon_split buffer in
        when (negb (length user =? 0)%nat)
          (modify (fun u => set_username (username u ++ utf8_percent_encode user SAFE_USERINFO false) u)) ;;
        when (negb (length pass =? 0)%nat)
          (modify (fun u => set_password (password u ++ utf8_percent_encode pass SAFE_USERINFO false) u)) ;;
        authority_loop t (S i) [] true seen
      else
        u <- get ;;
        if mem c $"/?#" || (is_special u && (c =? 92))
        then authority_end i buffer at_sign_seen
        else authority_loop t (S i) (buffer ++ [c]) at_sign_seen password_token_seen
  end.
Definition parse_authority (rest : str) : M (pstate * nat) :=
  k <- authority_loop rest 0 [] false false ;; ret (HOST, k).

(** parse.py:3133-3189 [_parse_file] *)
Definition base_is_file (base : option urlrec) : bool :=
  match base with Some b => str_eqb (scheme b) $"file" | None => false end.
Definition parse_file (rest : str) (base : option urlrec) : M (pstate * nat) :=
  modify (set_scheme $"file") ;;
  modify (set_host (Some (HStr []))) ;;
  let c := cur rest in
  if iscp c $"/\" then
    when (isc c 92) (logm VInvalidReverseSolidus) ;; ret (FILE_SLASH, 1%nat)
  else
    match base with
    | Some b =>
        if str_eqb (scheme b) $"file" then
          modify (set_host (uhost b)) ;;
          modify (set_path (path b)) ;;
          modify (set_query (query b)) ;;
          if isc c 63 then modify (set_query (Some [])) ;; ret (QUERY, 1%nat)
          else if isc c 35 then modify (set_fragment (Some [])) ;; ret (FRAGMENT, 1%nat)
          else if negb (iseof c) then
            modify (set_query None) ;;
            (if negb (starts_with_windows_drive_letter rest)
             then shorten_path
             else logm VFileDriveLetter ;; modify (set_path (PList []))) ;;
            ret (PATH, 0%nat)
          else ret (PATH, 0%nat)
        else ret (PATH, 0%nat)
    | None => ret (PATH, 0%nat)
    end.

(** parse.py:3191-3237 [_parse_file_host] *)
Definition file_host_end (E : env) (so : option pstate) (i : nat) (buffer : str)
  : M (pstate * nat) :=
  if negb (overridden so) && is_windows_drive_letter buffer then
    logm VFileDriveLetterHost ;; ret (PATH, (i - length buffer)%nat)
  else match buffer with
       | [] => modify (set_host (Some (HStr []))) ;;
               if overridden so then ret (EOF, i) else ret (PATH_START, i)
       | _ =>
           u <- get ;;
           h <- lift (host_parse E buffer (is_not_special u)) ;;
           let h := match h with
                    | HStr s => if str_eqb s $"localhost" then HStr [] else h
                    | _ => h
                    end in
           modify (set_host (Some h)) ;;
           if overridden so then ret (EOF, i) else ret (PATH_START, i)
       end.
Fixpoint file_host_loop (E : env) (so : option pstate) (rest : str) (i : nat) (buffer : str)
  : M (pstate * nat) :=
  match rest with
  | [] => file_host_end E so i buffer
  | c :: t => if mem c $"/\?#" then file_host_end E so i buffer
              else file_host_loop E so t (S i) (buffer ++ [c])
  end.
Definition parse_file_host (E : env) (rest : str) (so : option pstate) : M (pstate * nat) :=
  file_host_loop E so rest 0 [].

(** parse.py:3239-3275 [_parse_file_slash] *)
Definition parse_file_slash (rest : str) (base : option urlrec) : M (pstate * nat) :=
  let c := cur rest in
  if iscp c $"/\" then
    when (isc c 92) (logm VInvalidReverseSolidus) ;; ret (FILE_HOST, 1%nat)
  else
    match base with
    | Some b =>
        if str_eqb (scheme b) $"file" then
          modify (set_host (uhost b)) ;;
          (* an opaque base path is indexed character-wise; one character is
             never a drive letter *)
          match path b with
          | PList (s :: _) =>
              when (negb (starts_with_windows_drive_letter rest)
                    && is_normalized_windows_drive_letter s)
                (u <- get ;; match path u with POpaque _ => raise EAssert | PList _ => path_append s end)
          | _ => ret tt
          end ;;
          ret (PATH, 0%nat)
        else ret (PATH, 0%nat)
    | None => ret (PATH, 0%nat)
    end.

(** [url.fragment += x], [url.query += x]: TypeError when it is None *)
Definition fragment_append (x : str) : M unit :=
  u <- get ;;
  match fragment u with
  | Some f => modify (set_fragment (Some (f ++ x)))
  | None => raise EType
  end.
Definition query_append (x : str) : M unit :=
  u <- get ;;
  match query u with
  | Some q => modify (set_query (Some (q ++ x)))
  | None => raise EType
  end.

(** parse.py:3277-3330 [_parse_fragment] *)
Fixpoint fragment_loop (rest : str) (i : nat) (buffer : str) : M (pstate * nat) :=
  match rest with
  | [] => when (negb (length buffer =? 0)%nat)
            (fragment_append (utf8_percent_encode buffer SAFE_FRAGMENT false)) ;;
          ret (EOF, i)
  | c :: t => check_unit c t ;; fragment_loop t (S i) (buffer ++ [c])
  end.
Definition parse_fragment (rest : str) : M (pstate * nat) := fragment_loop rest 0 [].

(** parse.py:3332-3400 [_parse_host]. [port_truthy]: [url.port] as a truth
    value; 0 is false like None. *)
Definition port_truthy (p : option N) : bool :=
  match p with Some n => negb (n =? 0) | None => false end.
Definition host_end (E : env) (so : option pstate) (i : nat) (buffer : str) : M (pstate * nat) :=
  u <- get ;;
  if is_special u && (length buffer =? 0)%nat then fail VHostMissing EURLParse
  else if overridden so && (length buffer =? 0)%nat
          && (includes_credentials u || port_truthy (port u))
  then ret (EOF, i)
  else
    h <- lift (host_parse E buffer (is_not_special u)) ;;
    modify (set_host (Some h)) ;;
    if overridden so then ret (EOF, i) else ret (PATH_START, i).
Fixpoint host_loop (E : env) (so : option pstate) (rest : str) (i : nat) (buffer : str)
    (inside_brackets : bool) : M (pstate * nat) :=
  match rest with
  | [] => host_end E so i buffer
  | c :: t =>
      u <- get ;;
      if (c =? 58) && negb inside_brackets then
        if (length buffer =? 0)%nat then fail VHostMissing EURLParse
        else if is_hostname_override so then ret (EOF, i)
        else
          h <- lift (host_parse E buffer (is_not_special u)) ;;
          modify (set_host (Some h)) ;;
          ret (PORT, S i)
      else if mem c $"/?#" || (is_special u && (c =? 92)) then host_end E so i buffer
      else host_loop E so t (S i) (buffer ++ [c])
             (if c =? 91 then true else if c =? 93 then false else inside_brackets)
  end.
Definition parse_host (E : env) (rest : str) (so : option pstate) : M (pstate * nat) :=
  u <- get ;;
  if overridden so && str_eqb (scheme u) $"file" then ret (FILE_HOST, 0%nat)
  else host_loop E so rest 0 [] false.

(** parse.py:3402-3442 [_parse_no_scheme] *)
Definition parse_no_scheme (rest : str) (base : option urlrec) : M (pstate * nat) :=
  let c := cur rest in
  match base with
  | None => fail VMissingScheme EURLParse
  | Some b =>
      if has_opaque_path b && negb (isc c 35) then fail VMissingScheme EURLParse
      else if has_opaque_path b && isc c 35 then
        modify (set_scheme (scheme b)) ;;
        modify (set_path (path b)) ;;
        modify (set_query (query b)) ;;
        modify (set_fragment (Some [])) ;;
        ret (FRAGMENT, 1%nat)
      else if negb (str_eqb (scheme b) $"file") then ret (RELATIVE, 0%nat)
      else ret (FILE, 0%nat)
  end.

(** [url.path += x]: string concatenation, or list extension by characters *)
Definition path_extend (x : str) : M unit :=
  modify (fun u => set_path (match path u with
                             | POpaque s => POpaque (s ++ x)
                             | PList l => PList (l ++ map (fun c => [c]) x)
                             end) u).

(** parse.py:3444-3502 [_parse_opaque_path] *)
Fixpoint opaque_path_loop (rest : str) (i : nat) : M (pstate * nat) :=
  match rest with
  | [] => ret (EOF, i)
  | c :: t =>
      if c =? 63 then modify (set_query (Some [])) ;; ret (QUERY, S i)
      else if c =? 35 then modify (set_fragment (Some [])) ;; ret (FRAGMENT, S i)
      else
        check_unit c t ;;
        path_extend (utf8_percent_encode [c] SAFE_C0_CONTROL false) ;;
        opaque_path_loop t (S i)
  end.
Definition parse_opaque_path (rest : str) : M (pstate * nat) := opaque_path_loop rest 0.

(** parse.py:3504-3597 [_parse_path]. [path_flush] is parse.py:3535-3559, the
    end of one segment. *)
Definition path_flush (c : cp) (buffer : str) : M unit :=
  u <- get ;;
  let buffer := utf8_percent_encode buffer SAFE_PATH false in
  let is_sep := isc c 47 || (is_special u && isc c 92) in
  if str_in buffer DOUBLE_DOT then
    shorten_path ;; when (negb is_sep) (path_append [])
  else if str_in buffer SINGLE_DOT then
    when (negb is_sep) (path_append [])
  else
    let empty_path := match path u with POpaque s => (length s =? 0)%nat
                                      | PList l => (length l =? 0)%nat end in
    let buffer :=
      if str_eqb (scheme u) $"file" && empty_path && is_windows_drive_letter buffer
      then firstn 1 buffer ++ $":" else buffer in
    path_append buffer.
Fixpoint path_loop (so : option pstate) (rest : str) (i : nat) (buffer : str) : M (pstate * nat) :=
  match rest with
  | [] => path_flush None buffer ;; ret (OPAQUE_PATH, i)
  | c :: t =>
      u <- get ;;
      if (c =? 47) || (is_special u && (c =? 92)) || (negb (overridden so) && mem c $"?#")
      then
        when (is_special u && (c =? 92)) (logm VInvalidReverseSolidus) ;;
        path_flush (Some c) buffer ;;
        if c =? 63 then modify (set_query (Some [])) ;; ret (QUERY, S i)
        else if c =? 35 then modify (set_fragment (Some [])) ;; ret (FRAGMENT, S i)
        else path_loop so t (S i) []
      else check_unit c t ;; path_loop so t (S i) (buffer ++ [c])
  end.
Definition parse_path (rest : str) (so : option pstate) : M (pstate * nat) := path_loop so rest 0 [].

(** parse.py:3599-3615 [_parse_path_or_authority] *)
Definition parse_path_or_authority (rest : str) : M (pstate * nat) :=
  if isc (cur rest) 47 then ret (AUTHORITY, 1%nat) else ret (PATH, 0%nat).

(** parse.py:3617-3658 [_parse_path_start] *)
Definition parse_path_start (rest : str) (so : option pstate) : M (pstate * nat) :=
  let c := cur rest in
  u <- get ;;
  if is_special u then
    when (isc c 92) (logm VInvalidReverseSolidus) ;;
    ret (PATH, if iscp c $"/\" then 1%nat else 0%nat)
  else if negb (overridden so) && isc c 63 then
    modify (set_query (Some [])) ;; ret (QUERY, 1%nat)
  else if negb (overridden so) && isc c 35 then
    modify (set_fragment (Some [])) ;; ret (FRAGMENT, 1%nat)
  else if negb (iseof c) then ret (PATH, if isc c 47 then 1%nat else 0%nat)
  else
    when (overridden so && match uhost u with None => true | Some _ => false end) (path_append []) ;;
    ret (EOF, 0%nat).

(** parse.py:3660-3711 [_parse_port] *)
Definition on_eqb (a b : option N) : bool :=
  match a, b with Some x, Some y => x =? y | None, None => true | _, _ => false end.
Definition port_end (E : env) (so : option pstate) (i : nat) (buffer : str) : M (pstate * nat) :=
  (match buffer with
   | [] => ret tt
   | _ =>
       match e_int E buffer 10 with
       | None => raise EValue
       | Some z =>
           let p := Z.to_N z in
           if 65535 <? p then fail VPortOutOfRange EURLParse
           else
             u <- get ;;
             if on_eqb (default_port (scheme u)) (Some p)
             then modify (set_port None) else modify (set_port (Some p))
       end
   end) ;;
  if overridden so then ret (EOF, i) else ret (PATH_START, i).
Fixpoint port_loop (E : env) (so : option pstate) (rest : str) (i : nat) (buffer : str)
  : M (pstate * nat) :=
  match rest with
  | [] => port_end E so i buffer
  | c :: t =>
      if mem c ASCII_DIGITS then port_loop E so t (S i) (buffer ++ [c])
      else
        u <- get ;;
        if mem c $"/?#" || (is_special u && (c =? 92)) || overridden so
        then port_end E so i buffer
        else fail VPortInvalid EURLParse
  end.
Definition parse_port (E : env) (rest : str) (so : option pstate) : M (pstate * nat) :=
  port_loop E so rest 0 [].

(** parse.py:3713-3783 [_parse_query]. [enc_of] maps a lower-cased encoding
    name to its encoder. *)
Definition enc_of (E : env) (encoding : str) : N -> option (list N) :=
  if str_eqb encoding $"utf-8" then utf8_enc1 else codec E encoding.
Definition query_encoding (u : urlrec) (encoding : str) : str :=
  if negb (str_eqb encoding $"utf-8") && (is_not_special u || str_in (scheme u) [$"ws"; $"wss"])
  then $"utf-8" else encoding.
Definition query_flush (E : env) (encoding buffer : str) : M unit :=
  u <- get ;;
  let safe := if is_special u then SAFE_SPECIAL_QUERY else SAFE_QUERY in
  match string_percent_encode (enc_of E (query_encoding u encoding)) buffer safe false with
  | None => raise EUnicode
  | Some x => query_append x
  end.
Fixpoint query_loop (E : env) (so : option pstate) (encoding rest : str) (i : nat) (buffer : str)
  : M (pstate * nat) :=
  match rest with
  | [] => when (negb (length buffer =? 0)%nat) (query_flush E encoding buffer) ;; ret (FRAGMENT, i)
  | c :: t =>
      if negb (overridden so) && (c =? 35) then
        query_flush E encoding buffer ;; modify (set_fragment (Some [])) ;; ret (FRAGMENT, S i)
      else check_unit c t ;; query_loop E so encoding t (S i) (buffer ++ [c])
  end.
Definition parse_query (E : env) (rest : str) (so : option pstate) (encoding : str)
  : M (pstate * nat) := query_loop E so encoding rest 0 [].

(** parse.py:3785-3830 [_parse_relative] *)
Definition parse_relative (rest : str) (base : option urlrec) : M (pstate * nat) :=
  match base with
  | None => raise EAssert
  | Some b =>
      if str_eqb (scheme b) $"file" then raise EAssert
      else
        modify (set_scheme (scheme b)) ;;
        let c := cur rest in
        u <- get ;;
        if isc c 47 then ret (RELATIVE_SLASH, 1%nat)
        else if is_special u && isc c 92 then
          logm VInvalidReverseSolidus ;; ret (RELATIVE_SLASH, 1%nat)
        else
          modify (set_username (username b)) ;;
          modify (set_password (password b)) ;;
          modify (set_host (uhost b)) ;;
          modify (set_port (port b)) ;;
          modify (set_path (path b)) ;;
          modify (set_query (query b)) ;;
          if isc c 63 then modify (set_query (Some [])) ;; ret (QUERY, 1%nat)
          else if isc c 35 then modify (set_fragment (Some [])) ;; ret (FRAGMENT, 1%nat)
          else if negb (iseof c) then
            modify (set_query None) ;; shorten_path ;; ret (PATH, 0%nat)
          else ret (EOF, 0%nat)
  end.

(** parse.py:3832-3867 [_parse_relative_slash] *)
Definition parse_relative_slash (rest : str) (base : option urlrec) : M (pstate * nat) :=
  let c := cur rest in
  u <- get ;;
  if is_special u && iscp c $"/\" then
    when (isc c 92) (logm VInvalidReverseSolidus) ;;
    ret (SPECIAL_AUTHORITY_IGNORE_SLASHES, 1%nat)
  else if isc c 47 then ret (AUTHORITY, 1%nat)
  else
    match base with
    | None => raise EAssert
    | Some b =>
        modify (set_username (username b)) ;;
        modify (set_password (password b)) ;;
        modify (set_host (uhost b)) ;;
        modify (set_port (port b)) ;;
        ret (PATH, 0%nat)
    end.

(** parse.py:3869-3961 [_parse_scheme]: scheme start state and scheme state.
    [scheme_colon] is parse.py:3903-3954; [t] is the input after the ':' and
    [i] its offset. *)
Definition scheme_blocked (u : urlrec) (buffer : str) : bool :=
  (is_special u && negb (special_scheme buffer))
  || (is_not_special u && special_scheme buffer)
  || ((includes_credentials u || port_truthy (port u)) && str_eqb buffer $"file")
  || (str_eqb (scheme u) $"file" && null_or_empty_host (uhost u)).
Definition scheme_colon (base : option urlrec) (so : option pstate) (t : str) (i : nat) (buffer : str)
  : M (pstate * nat) :=
  let buffer := lower buffer in
  u <- get ;;
  if overridden so && scheme_blocked u buffer then ret (EOF, i)
  else
    modify (set_scheme buffer) ;;
    if overridden so then
      when (port_truthy (port u) && on_eqb (default_port buffer) (port u)) (modify (set_port None)) ;;
      ret (EOF, i)
    else if str_eqb buffer $"file" then
      when (negb (starts_with $"//" t)) (logm VSpecialSchemeMissingSolidus) ;; ret (FILE, i)
    else if special_scheme buffer
            && match base with Some b => str_eqb (scheme b) buffer | None => false end then
      ret (SPECIAL_RELATIVE_OR_AUTHORITY, i)
    else if special_scheme buffer then ret (SPECIAL_AUTHORITY_SLASHES, i)
    else if starts_with $"/" t then ret (PATH_OR_AUTHORITY, S i)
    else modify (set_path (POpaque [])) ;; ret (OPAQUE_PATH, i).
Fixpoint scheme_loop (base : option urlrec) (so : option pstate) (rest : str) (i : nat) (buffer : str)
  : M (pstate * nat) :=
  match rest with
  | [] => if overridden so then raise EURLParse else ret (NO_SCHEME, 0%nat)
  | c :: t =>
      if mem c ASCII_ALPHANUMERIC || mem c $"+-." then scheme_loop base so t (S i) (buffer ++ [c])
      else if c =? 58 then scheme_colon base so t (S i) buffer
      else if overridden so then raise EURLParse else ret (NO_SCHEME, 0%nat)
  end.
Definition parse_scheme (rest : str) (base : option urlrec) (so : option pstate) : M (pstate * nat) :=
  match rest with
  | c :: t =>
      if mem c ASCII_ALPHA then scheme_loop base so t 1 [c]
      else if overridden so then raise EURLParse else ret (NO_SCHEME, 0%nat)
  | [] => if overridden so then raise EURLParse else ret (NO_SCHEME, 0%nat)
  end.

(** parse.py:3963-3993 [_parse_special_authority_ignore_slashes] *)
Fixpoint ignore_slashes_loop (rest : str) (i : nat) : M (pstate * nat) :=
  match rest with
  | [] => ret (AUTHORITY, i)
  | c :: t => if mem c $"/\" then logm VSpecialSchemeMissingSolidus ;; ignore_slashes_loop t (S i)
              else ret (AUTHORITY, i)
  end.
Definition parse_ignore_slashes (rest : str) : M (pstate * nat) := ignore_slashes_loop rest 0.

(** parse.py:3995-4024 [_parse_special_authority_slashes] *)
Definition parse_special_authority_slashes (rest : str) : M (pstate * nat) :=
  if starts_with $"//" rest then ret (SPECIAL_AUTHORITY_IGNORE_SLASHES, 2%nat)
  else logm VSpecialSchemeMissingSolidus ;; ret (SPECIAL_AUTHORITY_IGNORE_SLASHES, 0%nat).

(** parse.py:4026-4055 [_parse_special_relative_or_authority] *)
Definition parse_special_relative_or_authority (rest : str) : M (pstate * nat) :=
  if starts_with $"//" rest then ret (SPECIAL_AUTHORITY_IGNORE_SLASHES, 2%nat)
  else logm VSpecialSchemeMissingSolidus ;; ret (RELATIVE, 0%nat).

(** parse.py:4198-4305: one iteration of [while state != EOF] *)
Definition step (E : env) (base : option urlrec) (encoding : str) (so : option pstate)
    (st : pstate) (rest : str) : M (pstate * nat) :=
  match st with
  | SCHEME_START => parse_scheme rest base so
  | NO_SCHEME => parse_no_scheme rest base
  | SPECIAL_RELATIVE_OR_AUTHORITY => parse_special_relative_or_authority rest
  | PATH_OR_AUTHORITY => parse_path_or_authority rest
  | RELATIVE => parse_relative rest base
  | RELATIVE_SLASH => parse_relative_slash rest base
  | SPECIAL_AUTHORITY_SLASHES => parse_special_authority_slashes rest
  | SPECIAL_AUTHORITY_IGNORE_SLASHES => parse_ignore_slashes rest
  | AUTHORITY => parse_authority rest
  | HOST | HOSTNAME => parse_host E rest so
  | PORT => parse_port E rest so
  | FILE => parse_file rest base
  | FILE_SLASH => parse_file_slash rest base
  | FILE_HOST => parse_file_host E rest so
  | PATH_START => parse_path_start rest so
  | PATH => parse_path rest so
  | OPAQUE_PATH => parse_opaque_path rest
  | QUERY => parse_query E rest so encoding
  | FRAGMENT => parse_fragment rest
  | SCHEME => raise ENotImpl
  | EOF => ret (EOF, 0%nat)
  end.

(** parse.py:4198-4321: the loop, with fuel (C26 proves that 12 iterations
    always suffice) *)
Fixpoint run_fsm (fuel : nat) (E : env) (base : option urlrec) (encoding : str) (so : option pstate)
    (st : pstate) (rest : str) : M unit :=
  match st with
  | EOF => ret tt
  | _ =>
      match fuel with
      | O => raise EFuel
      | S f =>
          r <- step E base encoding so st rest ;;
          run_fsm f E base encoding so (fst r) (skipn (snd r) rest)
      end
  end.
Definition FSM_FUEL : nat := 20.

(** str.lower(): ASCII here, the rest from the environment *)
Definition py_lower (E : env) (s : str) : str :=
  flat_map (fun c => if c <? 128 then [lower1 c] else uni_lower E c) s.
(** parse.py:4193-4196 *)
Definition normalize_encoding (E : env) (encoding : str) : str :=
  let e := py_lower E encoding in if str_in e UTF_CODECS then $"utf-8" else e.

(** parse.py:4172-4183: LEADING_AND_TRAILING_C0_CONTROL_OR_SPACE_RE *)
Definition is_c0_space (c : N) : bool := c <=? 32.
Definition strip_c0 (s : str) : str := rstrip_by is_c0_space (drop_while is_c0_space s).
Definition needs_strip (s : str) : bool :=
  match s with
  | [] => false
  | c :: _ => is_c0_space c || is_c0_space (last s 0)
  end.
(** parse.py:4185-4191: ASCII_TAB_OR_NEWLINE_RE *)
Definition is_tab_newline (c : N) : bool := (c =? 9) || (c =? 10) || (c =? 13).
Definition remove_tabs (s : str) : str := filter (fun c => negb (is_tab_newline c)) s.

(** parse.py:4058-4322 [BasicURLParser.parse] with [url] given (the record is
    updated in place) ... *)
Definition parse_into (E : env) (urlstring : str) (base : option urlrec) (encoding : str)
    (so : option pstate) : M unit :=
  when (existsb is_tab_newline urlstring) (logm VInvalidURLUnit) ;;
  run_fsm FSM_FUEL E base (normalize_encoding E encoding) so
    (match so with Some st => st | None => SCHEME_START end) (remove_tabs urlstring).
(** ... and without [url]: a new record, and the input is stripped first. *)
Definition parse_new (E : env) (urlstring : str) (base : option urlrec) (encoding : str) : W urlrec :=
  match ((when (needs_strip urlstring) (logm VInvalidURLUnit) ;;
          parse_into E (strip_c0 urlstring) base encoding None) new_url) with
  | (l, (u, Ok _)) => (l, Ok u)
  | (l, (_, Err e)) => (l, Err e)
  end.

(** parse.py:4325-4361 [parse_url] *)
Inductive base_arg := BNone | BStr (s : str) | BRec (u : urlrec).
Definition parse_url (E : env) (urlstring : str) (base : base_arg) (encoding : str) : W urlrec :=
  b <~ (match base with
        | BNone => wret None
        | BRec u => wret (Some u)
        | BStr s => u <~ parse_new E s None encoding ;; wret (Some u)
        end) ;;
  parse_new E urlstring b encoding.

Definition UTF8 : str := $"utf-8".

(* ---------- origins (parse.py:1552-1625, 1790-1814) ---------- *)

Record origin := mkorigin {
  og_scheme : str; og_host : option host; og_port : option N; og_domain : option str }.

Definition tuple_origin (u : urlrec) : option origin :=
  if str_in (scheme u) [$"ftp"; $"http"; $"https"; $"ws"; $"wss"]
  then Some (mkorigin (scheme u) (uhost u) (port u) None)
  else None.

(** parse.py:1790-1814 [URLRecord.origin]; no ValidityState is passed, so
    nothing is logged to the caller. The recursion at 1809 is on a record whose
    scheme is http, https or file, i.e. not "blob". *)
Definition record_origin (E : env) (u : urlrec) : res (option origin) :=
  if str_eqb (scheme u) $"blob" then
    let nonempty := match path u with POpaque s => negb (length s =? 0)%nat
                                    | PList l => negb (length l =? 0)%nat end in
    if nonempty then
      match snd (parse_new (with_validity E false) (serialize_path u) None UTF8) with
      | Ok p => if str_in (scheme p) [$"http"; $"https"; $"file"] then Ok (tuple_origin p) else Ok None
      | Err e => if is_url_error e then Ok None else Err e
      end
    else Ok None
  else Ok (tuple_origin u).

Definition host_eqb (a b : host) : bool :=
  match a, b with
  | HStr s, HStr t => str_eqb s t
  | HIPv4 m, HIPv4 n => m =? n
  | HIPv6 l, HIPv6 l' => str_eqb l l'
  | _, _ => false
  end.
Definition ohost_eqb (a b : option host) : bool :=
  match a, b with Some x, Some y => host_eqb x y | None, None => true | _, _ => false end.
Definition ostr_eqb (a b : option str) : bool :=
  match a, b with Some x, Some y => str_eqb x y | None, None => true | _, _ => false end.

(** parse.py:1567-1576 [Origin.__str__] *)
Definition origin_str (o : origin) : str :=
  og_scheme o ++ $"://"
  ++ (match og_host o with Some h => host_serialize h | None => [] end)
  ++ (match og_port o with Some p => $":" ++ dec_str p | None => [] end).

(** parse.py:1578-1595 [is_same_origin] *)
Definition is_same_origin (a b : origin) : bool :=
  str_eqb (og_scheme a) (og_scheme b) && ohost_eqb (og_host a) (og_host b)
  && on_eqb (og_port a) (og_port b).

(** parse.py:1597-1625 [is_same_origin_domain] *)
Definition is_same_origin_domain (a b : origin) : bool :=
  (str_eqb (og_scheme a) (og_scheme b)
   && (match og_domain a with Some (_ :: _) => true | _ => false end)
   && ostr_eqb (og_domain a) (og_domain b))
  || (is_same_origin a b
      && (match og_domain a with None => true | _ => false end)
      && (match og_domain b with None => true | _ => false end)).
