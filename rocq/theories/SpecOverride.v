(** What BasicURLParser.parse may do to a record with a state override (C136): the components that each state may
    write, and the calls that are misuse, i.e. that stop with a Python error that is no URLParseError. *)
From Coq Require Import Ascii String.
From Coq Require Import NArith Bool List.
From Verif Require Import PyStr Env HostModel UrlRecord Parser SpecText SpecUrl SpecParser SpecApi.
Import ListNotations.
Open Scope N_scope.

(** the components that a call with this override may write *)
Definition may_write (st : pstate) : list component :=
  match st with
  | EOF | SCHEME => []
  | SCHEME_START => [CScheme; CPort]
  | AUTHORITY | SPECIAL_AUTHORITY_SLASHES | SPECIAL_AUTHORITY_IGNORE_SLASHES => [CUsername; CPassword; CHost; CPort]
  | HOST => [CHost; CPort]
  | HOSTNAME | FILE_HOST => [CHost]
  | PORT => [CPort]
  | PATH | PATH_START => [CPath]
  | PATH_OR_AUTHORITY => [CUsername; CPassword; CHost; CPort; CPath]
  | OPAQUE_PATH => [CPath; CQuery; CFragment]
  | QUERY => [CQuery]
  | FRAGMENT => [CFragment]
  | FILE_SLASH => [CHost; CPath]
  | FILE => [CScheme; CHost; CPath; CQuery; CFragment]
  | RELATIVE_SLASH => [CUsername; CPassword; CHost; CPort; CPath]
  | RELATIVE | NO_SCHEME | SPECIAL_RELATIVE_OR_AUTHORITY =>
      [CScheme; CUsername; CPassword; CHost; CPort; CPath; CQuery; CFragment]
  end.

Inductive misuse :=
| NoText       (* the query or the fragment is None: TypeError *)
| OpaquePath   (* segments for an opaque path: AssertionError or AttributeError *)
| NoBase       (* the relative states without a base, or with a file base: AssertionError *)
| NoState.     (* NotImplementedError *)
Definition misuse_exc (m : misuse) (e : exc) : Prop :=
  match m with
  | NoText => e = EType
  | OpaquePath => e = EAssert \/ e = EAttr
  | NoBase => e = EAssert
  | NoState => e = ENotImpl
  end.

Definition is_opaque (u : urlrec) : bool := match path u with POpaque _ => true | PList _ => false end.
Definition segments (u : urlrec) : option misuse := if is_opaque u then Some OpaquePath else None.
Definition slash_first (special : bool) (inp : list N) : bool :=
  match inp with c :: _ => (c =? 47) || special && (c =? 92) | [] => false end.
Definition relative_slash_misuse (special : bool) (inp : list N) (u : urlrec) (base : option urlrec) : option misuse :=
  if slash_first special inp then None else match base with None => Some NoBase | Some _ => segments u end.
Definition relative_misuse (inp : list N) (u : urlrec) (base : option urlrec) : option misuse :=
  match base with
  | None => Some NoBase
  | Some b =>
      if str_eqb (scheme b) $"file" then Some NoBase
      else if slash_first (std_is_special b) inp then relative_slash_misuse (std_is_special b) (tl inp) u base
      else match inp with
           | [] => None
           | c :: _ => if (c =? 63) || (c =? 35) then None else segments b
           end
  end.
Definition file_slash_misuse (inp : list N) (u : urlrec) : option misuse :=
  if slash_first true inp then None else segments u.
Definition file_misuse (inp : list N) (u : urlrec) (base : option urlrec) : option misuse :=
  if slash_first true inp then file_slash_misuse (tl inp) u
  else match base with
       | Some b =>
           if str_eqb (scheme b) $"file" then
             match inp with
             | c :: _ => if (c =? 63) || (c =? 35) || std_starts_drive_letter inp then None else segments b
             | [] => segments b
             end
           else segments u
       | None => segments u
       end.
(** [inp]: the input without tabs and newlines *)
Definition misuse_of (st : pstate) (inp : list N) (u : urlrec) (base : option urlrec) : option misuse :=
  match st with
  | SCHEME => Some NoState
  | QUERY => match query u, inp with None, _ :: _ => Some NoText | _, _ => None end
  | FRAGMENT => match fragment u, inp with None, _ :: _ => Some NoText | _, _ => None end
  | PATH => segments u
  | PATH_START =>
      match inp, uhost u with
      | [], Some _ => if std_is_special u then segments u else None
      | _, _ => segments u
      end
  | PATH_OR_AUTHORITY => if slash_first false inp then None else segments u
  | FILE_SLASH => file_slash_misuse inp u
  | FILE => file_misuse inp u base
  | RELATIVE_SLASH => relative_slash_misuse (std_is_special u) inp u base
  | RELATIVE => relative_misuse inp u base
  | SPECIAL_RELATIVE_OR_AUTHORITY => if slash_first false inp && slash_first false (tl inp) then None else relative_misuse inp u base
  | NO_SCHEME =>
      match base with
      | None => None
      | Some b => if is_opaque b then None
                  else if str_eqb (scheme b) $"file" then file_misuse inp u base else relative_misuse inp u base
      end
  | _ => None
  end.

(** the record that a call works on, and its input *)
Definition target (url : option urlrec) : urlrec := match url with Some u => u | None => new_url end.
Definition call_input (url : option urlrec) (s : list N) : list N := match url with Some _ => std_strip_tabs s | None => std_input s end.
(** userinfo text added to the credentials of a record: up to the first ':' and after it *)
Definition add_userinfo (ui : list N) (u : urlrec) : urlrec :=
  let (user, pass) := std_upto 58 ui in
  set_password (password u ++ std_percent_encode userinfo_set false pass) (set_username (username u ++ std_percent_encode userinfo_set false user) u).
