(** A direct-style description of what the parser's state machine computes (for
    runs without state override): no states, no pointer arithmetic, no logging.
    FlatProofs.v proves that it equals the model of Parser.v; the property proofs
    work on this form. *)
From Coq Require Import Ascii String.
From Coq Require Import NArith ZArith Bool Arith List.
From Verif Require Import PyStr PyInt Codec Env HostModel UrlRecord Parser.
Import ListNotations.
Open Scope N_scope.

(** longest prefix of characters satisfying [p], and the remainder *)
Fixpoint span (p : N -> bool) (s : str) : str * str :=
  match s with
  | [] => ([], [])
  | c :: t => if p c then let (a, b) := span p t in (c :: a, b) else ([], s)
  end.

(** split at the last / first occurrence of [x] *)
Fixpoint split_last (x : N) (s : str) : option (str * str) :=
  match s with
  | [] => None
  | c :: t =>
      match split_last x t with
      | Some (a, b) => Some (c :: a, b)
      | None => if c =? x then Some ([], t) else None
      end
  end.
Definition split_first (x : N) (s : str) : str * str :=
  let (a, t) := span (fun c => negb (c =? x)) s in (a, tl t).

(** characters ending the authority *)
Definition ends_auth (sp : bool) (c : N) : bool := mem c $"/?#" || (sp && (c =? 92)).
Definition is_qf (c : N) : bool := mem c $"?#".
Definition is_slash (c : N) : bool := mem c $"/\".

Definition rbind {A B} (r : res A) (f : A -> res B) : res B :=
  match r with Ok a => f a | Err e => Err e end.

(* ---------- query and fragment ---------- *)
Definition enc_fragment (f : str) : str := utf8_percent_encode f SAFE_FRAGMENT false.
Definition enc_query (E : env) (encoding : str) (u : urlrec) (q : str) : option str :=
  string_percent_encode (enc_of E (query_encoding u encoding)) q
    (if is_special u then SAFE_SPECIAL_QUERY else SAFE_QUERY) false.

(** [t] is empty or starts with '#' *)
Definition flat_frag (u : urlrec) (t : str) : urlrec :=
  match t with [] => u | _ :: f => set_fragment (Some (enc_fragment f)) u end.
Definition flat_query (E : env) (encoding : str) (u : urlrec) (rest : str) : res urlrec :=
  let (q, t) := span (fun c => negb (c =? 35)) rest in
  match enc_query E encoding u q with
  | None => Err EUnicode
  | Some x => Ok (flat_frag (set_query (Some x) u) t)
  end.
(** [t] is empty or starts with '?' or '#' *)
Definition flat_tail (E : env) (encoding : str) (u : urlrec) (t : str) : res urlrec :=
  match t with
  | [] => Ok u
  | c :: r => if c =? 63 then flat_query E encoding u r else Ok (flat_frag u t)
  end.

(* ---------- paths ---------- *)
(** one segment; [sep]: it is followed by a separator *)
Definition push (sch : str) (sep : bool) (segs : list str) (buffer : str) : list str :=
  let b := utf8_percent_encode buffer SAFE_PATH false in
  if str_in b DOUBLE_DOT then
    let segs := shorten_segs sch segs in if sep then segs else segs ++ [[]]
  else if str_in b SINGLE_DOT then
    if sep then segs else segs ++ [[]]
  else
    segs ++ [if str_eqb sch $"file" && (length segs =? 0)%nat && is_windows_drive_letter b
             then firstn 1 b ++ $":" else b].
Fixpoint walk (sch : str) (segs : list str) (pieces : list str) : list str :=
  match pieces with
  | [] => segs
  | p :: rest =>
      match rest with
      | [] => push sch false segs p
      | _ => walk sch (push sch true segs p) rest
      end
  end.
Definition norm_slash (sp : bool) (p : str) : str := if sp then replace_char 92 47 p else p.
Definition pieces (sp : bool) (p : str) : list str := split 47 (norm_slash sp p).

Definition path_segs (u : urlrec) : list str := match path u with PList l => l | POpaque _ => [] end.
Definition flat_path (E : env) (encoding : str) (u : urlrec) (rest : str) : res urlrec :=
  let (p, t) := span (fun c => negb (is_qf c)) rest in
  flat_tail E encoding
    (set_path (PList (walk (scheme u) (path_segs u) (pieces (is_special u) p))) u) t.
Definition flat_path_start (E : env) (encoding : str) (u : urlrec) (rest : str) : res urlrec :=
  match rest with
  | [] => if is_special u then flat_path E encoding u [] else Ok u
  | c :: t =>
      if is_special u then flat_path E encoding u (if is_slash c then t else rest)
      else if is_qf c then flat_tail E encoding u rest
      else flat_path E encoding u (if c =? 47 then t else rest)
  end.
Definition enc_opaque (p : str) : str := flat_map (fun c => utf8_percent_encode [c] SAFE_C0_CONTROL false) p.
Definition flat_opaque (E : env) (encoding : str) (u : urlrec) (rest : str) : res urlrec :=
  let (p, t) := span (fun c => negb (is_qf c)) rest in
  flat_tail E encoding (set_path (POpaque (enc_opaque p)) u) t.

(* ---------- authority ---------- *)
Definition enc_userinfo (s : str) : str := utf8_percent_encode s SAFE_USERINFO false.
Definition set_creds (ui : str) (u : urlrec) : urlrec :=
  let (user, pass) := split_first 58 ui in
  set_password (enc_userinfo pass) (set_username (enc_userinfo user) u).

(** the host, and the text after the first ':' outside brackets *)
Fixpoint host_cut (br : bool) (s : str) : str * option str :=
  match s with
  | [] => ([], None)
  | c :: t =>
      if (c =? 58) && negb br then ([], Some t)
      else let (h, p) := host_cut (if c =? 91 then true else if c =? 93 then false else br) t in
           (c :: h, p)
  end.
Definition flat_port (E : env) (sch ps : str) : res (option N) :=
  if forallb (fun c => mem c ASCII_DIGITS) ps then
    match ps with
    | [] => Ok None
    | _ =>
        match e_int E ps 10 with
        | None => Err EValue
        | Some z =>
            let p := Z.to_N z in
            if 65535 <? p then Err EURLParse
            else Ok (if on_eqb (default_port sch) (Some p) then None else Some p)
        end
    end
  else Err EURLParse.
(** [a]: host and port, [t]: what follows the authority *)
Definition flat_host (E : env) (encoding : str) (u : urlrec) (a t : str) : res urlrec :=
  match host_cut false a with
  | (h, None) =>
      if is_special u && (length h =? 0)%nat then Err EURLParse
      else rbind (snd (host_parse E h (is_not_special u))) (fun x =>
           flat_path_start E encoding (set_host (Some x) u) t)
  | (h, Some ps) =>
      if (length h =? 0)%nat then Err EURLParse
      else rbind (snd (host_parse E h (is_not_special u))) (fun x =>
           rbind (flat_port E (scheme u) ps) (fun p =>
           flat_path_start E encoding (set_port p (set_host (Some x) u)) t))
  end.
Definition flat_authority (E : env) (encoding : str) (u : urlrec) (rest : str) : res urlrec :=
  let (a, t) := span (fun c => negb (ends_auth (is_special u) c)) rest in
  match split_last 64 a with
  | None => flat_host E encoding u a t
  | Some (ui, hp) =>
      if (length hp =? 0)%nat then Err EURLParse
      else flat_host E encoding (set_creds ui u) hp t
  end.

(* ---------- file URLs ---------- *)
Definition file_url : urlrec := set_host (Some (HStr [])) (set_scheme $"file" new_url).
Definition no_localhost (h : host) : host :=
  match h with HStr s => if str_eqb s $"localhost" then HStr [] else h | _ => h end.
Definition flat_file_host (E : env) (encoding : str) (u : urlrec) (rest : str) : res urlrec :=
  let (h, t) := span (fun c => negb (mem c $"/\?#")) rest in
  if is_windows_drive_letter h then flat_path E encoding u rest
  else match h with
       | [] => flat_path_start E encoding (set_host (Some (HStr [])) u) t
       | _ => rbind (snd (host_parse E h (is_not_special u))) (fun x =>
              flat_path_start E encoding (set_host (Some (no_localhost x)) u) t)
       end.
(** what is copied from a file base after one slash: its host and drive letter *)
Definition file_slash_url (base : option urlrec) (rest : str) (u : urlrec) : urlrec :=
  match base with
  | Some b =>
      if str_eqb (scheme b) $"file" then
        let u := set_host (uhost b) u in
        match path b with
        | PList (s :: _) =>
            if negb (starts_with_windows_drive_letter rest) && is_normalized_windows_drive_letter s
            then set_path (PList (path_segs u ++ [s])) u else u
        | _ => u
        end
      else u
  | None => u
  end.
Definition flat_file_slash (E : env) (base : option urlrec) (encoding : str) (u : urlrec) (rest : str) : res urlrec :=
  match rest with
  | c :: t => if is_slash c then flat_file_host E encoding u t
              else flat_path E encoding (file_slash_url base rest u) rest
  | [] => flat_path E encoding (file_slash_url base rest u) rest
  end.
Definition file_base_url (b u : urlrec) : urlrec :=
  set_query (query b) (set_path (path b) (set_host (uhost b) u)).
Definition flat_file (E : env) (base : option urlrec) (encoding : str) (rest : str) : res urlrec :=
  let u := file_url in
  let rel (b : urlrec) :=
    match rest with
    | [] => flat_path E encoding (file_base_url b u) []
    | c :: _ =>
        if is_qf c then flat_tail E encoding (file_base_url b u) rest
        else
          let u := set_query None (file_base_url b u) in
          flat_path E encoding
            (set_path (PList (if starts_with_windows_drive_letter rest then []
                              else shorten_segs (scheme u) (path_segs b))) u) rest
    end in
  let norel :=
    match base with
    | Some b => if str_eqb (scheme b) $"file" then rel b else flat_path E encoding u rest
    | None => flat_path E encoding u rest
    end in
  match rest with
  | c :: t => if is_slash c then flat_file_slash E base encoding u t else norel
  | [] => norel
  end.

(* ---------- relative references ---------- *)
Definition base_auth (b u : urlrec) : urlrec :=
  set_port (port b) (set_host (uhost b) (set_password (password b) (set_username (username b) u))).
Definition base_all (b u : urlrec) : urlrec := set_query (query b) (set_path (path b) (base_auth b u)).
Definition flat_relative_slash (E : env) (b : urlrec) (encoding : str) (u : urlrec) (rest : str) : res urlrec :=
  match rest with
  | c :: t =>
      if is_special u && is_slash c then flat_authority E encoding u (drop_while is_slash t)
      else if c =? 47 then flat_authority E encoding u t
      else flat_path E encoding (base_auth b u) rest
  | [] => flat_path E encoding (base_auth b u) rest
  end.
Definition flat_relative (E : env) (b : urlrec) (encoding : str) (rest : str) : res urlrec :=
  let u := set_scheme (scheme b) new_url in
  match rest with
  | [] => Ok (base_all b u)
  | c :: t =>
      if (c =? 47) || (is_special u && (c =? 92)) then flat_relative_slash E b encoding u t
      else if is_qf c then flat_tail E encoding (base_all b u) rest
      else
        let u := set_query None (base_all b u) in
        flat_path E encoding (set_path (PList (shorten_segs (scheme u) (path_segs b))) u) rest
  end.

(* ---------- schemes ---------- *)
Definition is_scheme_char (c : N) : bool := mem c ASCII_ALPHANUMERIC || mem c $"+-.".
(** the text before and after the ':' of an absolute input *)
Definition scheme_split (s : str) : option (str * str) :=
  match s with
  | [] => None
  | c :: t =>
      if mem c ASCII_ALPHA then
        match span is_scheme_char t with
        | (a, x :: r) => if x =? 58 then Some (c :: a, r) else None
        | (_, []) => None
        end
      else None
  end.
Definition same_scheme (base : option urlrec) (sch : str) : bool :=
  match base with Some b => str_eqb (scheme b) sch | None => false end.
Definition flat_scheme (E : env) (base : option urlrec) (encoding : str) (sch t : str) : res urlrec :=
  let u := set_scheme sch new_url in
  if str_eqb sch $"file" then flat_file E base encoding t
  else if special_scheme sch then
    match base with
    | Some b => if str_eqb (scheme b) sch && negb (starts_with $"//" t)
                then flat_relative E b encoding t
                else flat_authority E encoding u (drop_while is_slash t)
    | None => flat_authority E encoding u (drop_while is_slash t)
    end
  else match t with
       | c :: r => if c =? 47
                   then match r with
                        | d :: r' => if d =? 47 then flat_authority E encoding u r' else flat_path E encoding u r
                        | [] => flat_path E encoding u r
                        end
                   else flat_opaque E encoding u t
       | [] => flat_opaque E encoding u t
       end.
Definition flat_no_scheme (E : env) (base : option urlrec) (encoding : str) (rest : str) : res urlrec :=
  match base with
  | None => Err EURLParse
  | Some b =>
      if has_opaque_path b then
        match rest with
        | c :: _ =>
            if c =? 35
            then Ok (flat_frag (set_query (query b) (set_path (path b) (set_scheme (scheme b) new_url))) rest)
            else Err EURLParse
        | [] => Err EURLParse
        end
      else if str_eqb (scheme b) $"file" then flat_file E base encoding rest
      else flat_relative E b encoding rest
  end.
Definition flat_main (E : env) (base : option urlrec) (encoding : str) (s : str) : res urlrec :=
  match scheme_split s with
  | Some (sch, t) => flat_scheme E base encoding (lower sch) t
  | None => flat_no_scheme E base encoding s
  end.

(** the input after stripping and removal of tabs and newlines *)
Definition clean (s : str) : str := remove_tabs (strip_c0 s).
Definition flat_parse (E : env) (s : str) (base : option urlrec) (encoding : str) : res urlrec :=
  flat_main E base (normalize_encoding E encoding) (clean s).

(** bases the parser can meet without an assertion failure: a special scheme
    excludes an opaque path *)
Definition base_ok (base : option urlrec) : Prop :=
  match base with Some b => is_special b = true -> has_opaque_path b = false | None => True end.
