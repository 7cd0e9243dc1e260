(** class URL (parse.py:2323-2836): constructor, getters, setters and the
    attached URLSearchParams; urlparse (parse.py:424-494). *)
From Coq Require Import Ascii String.
From Coq Require Import NArith ZArith Bool Arith List.
From Verif Require Import PyStr PyInt Codec Env HostModel UrlRecord Parser SearchParams.
Import ListNotations.
Open Scope N_scope.

(** A URL object: its record ([_url]) and the list of its URLSearchParams
    ([_query._list]). [_query._url] is always the object's own record: it is set
    by __init__, href and search (parse.py:2385, 2537, 2761) and nowhere else. *)
Record urlobj := mkobj { o_url : urlrec; o_list : pairs }.

(** str.rstrip(): Python whitespace *)
Definition is_py_space (E : env) (c : N) : bool :=
  is_space_ascii c || ((28 <=? c) && (c <=? 31)) || ((127 <=? c) && uni_space E c).

(** parse.py:271-278 [potentially_rstrip_from_opaque_path] *)
Definition potentially_rstrip (E : env) (u : urlrec) : urlrec :=
  match path u, fragment u, query u with
  | POpaque s, None, None => set_path (POpaque (rstrip_by (is_py_space E) s)) u
  | _, _, _ => u
  end.

(** parse.py:2122-2130 [attach] *)
Definition attach_list (u : urlrec) : pairs :=
  parse_qsl (utf8_encode (match query u with Some q => q | None => [] end)).

(** parse.py:2380-2385 [URL.__init__] *)
Definition url_new (E : env) (s : str) (base : base_arg) : res urlobj :=
  match snd (parse_url (with_validity E false) s base UTF8) with
  | Ok u => Ok (mkobj u (attach_list u))
  | Err e => Err e
  end.

(** parse.py:2435-2467 [URL.can_parse]; a ValidityState is always in use *)
Definition can_parse (E : env) (s : str) (base : base_arg) : res bool :=
  match snd (parse_url (with_validity E true) s base UTF8) with
  | Ok _ => Ok true
  | Err e => if is_url_error e then Ok false else Err e
  end.

(** getters *)
Definition get_hash (o : urlobj) : str :=
  match fragment (o_url o) with None | Some [] => [] | Some f => 35 :: f end.
Definition get_host (o : urlobj) : str :=
  match uhost (o_url o) with
  | None => []
  | Some h => host_serialize h
              ++ match port (o_url o) with None => [] | Some p => $":" ++ dec_str p end
  end.
Definition get_hostname (o : urlobj) : str := serialize_host (o_url o).
Definition get_href (o : urlobj) : str := href (o_url o).
Definition get_origin (E : env) (o : urlobj) : res str :=
  match record_origin E (o_url o) with
  | Ok None => Ok $"null"
  | Ok (Some og) => Ok (origin_str og)
  | Err e => Err e
  end.
Definition get_password (o : urlobj) : str := password (o_url o).
Definition get_pathname (o : urlobj) : str := serialize_path (o_url o).
Definition get_port (o : urlobj) : str :=
  match port (o_url o) with None => [] | Some p => dec_str p end.
Definition get_protocol (o : urlobj) : str := scheme (o_url o) ++ $":".
Definition get_search (o : urlobj) : str :=
  match query (o_url o) with None | Some [] => [] | Some q => 63 :: q end.
Definition get_username (o : urlobj) : str := username (o_url o).

(** parse.py:2469-2479 [equals] / [__eq__] *)
Definition url_equals (a b : urlobj) (exclude_fragments : bool) : bool :=
  record_equals (o_url a) (o_url b) exclude_fragments.

(** [BasicURLParser.parse(value, url=url, state_override=so)] *)
Definition reparse (E : env) (value : str) (so : pstate) (u : urlrec) : urlrec * res unit :=
  run (parse_into (with_validity E false) value None UTF8 (Some so)) u.

Inductive setter :=
| SetHash (v : str) | SetHost (v : str) | SetHostname (v : str) | SetHref (v : str)
| SetPassword (v : str) | SetPathname (v : str) | SetPort (v : str) | SetProtocol (v : str)
| SetSearch (v : str) | SetUsername (v : str).

Definition strip_char (c : N) (v : str) : str :=
  match v with x :: t => if x =? c then t else v | [] => v end.

Definition with_url (o : urlobj) (r : urlrec * res unit) : urlobj * res unit :=
  (mkobj (fst r) (o_list o), snd r).

(** The property setters (parse.py:2499-2511, 2542-2548, 2570-2576, 2593-2596,
    2637-2643, 2665-2674, 2697-2706, 2727-2733, 2755-2768, 2830-2836). *)
Definition set_attr (E : env) (s : setter) (o : urlobj) : urlobj * res unit :=
  let u := o_url o in
  match s with
  | SetHash v =>
      match v with
      | [] => (mkobj (potentially_rstrip E (set_fragment None u)) (o_list o), Ok tt)
      | _ => with_url o (reparse E (strip_char 35 v) FRAGMENT (set_fragment (Some []) u))
      end
  | SetHost v => if has_opaque_path u then (o, Ok tt) else with_url o (reparse E v HOST u)
  | SetHostname v => if has_opaque_path u then (o, Ok tt) else with_url o (reparse E v HOSTNAME u)
  | SetHref v =>
      match snd (parse_new (with_validity E false) v None UTF8) with
      | Ok u' => (mkobj u' (attach_list u'), Ok tt)
      | Err e => (o, Err e)
      end
  | SetPassword v =>
      if cannot_have_username_password_port u then (o, Ok tt)
      else (mkobj (set_password (utf8_percent_encode v SAFE_USERINFO false) u) (o_list o), Ok tt)
  | SetPathname v =>
      if has_opaque_path u then (o, Ok tt)
      else with_url o (reparse E v PATH_START (set_path (PList []) u))
  | SetPort v =>
      if cannot_have_username_password_port u then (o, Ok tt)
      else match v with
           | [] => (mkobj (set_port None u) (o_list o), Ok tt)
           | _ => with_url o (reparse E v PORT u)
           end
  | SetProtocol v => with_url o (reparse E (v ++ $":") SCHEME_START u)
  | SetSearch v =>
      let (u', r) := match v with
                     | [] => (potentially_rstrip E (set_query None u), Ok tt)
                     | _ => reparse E (strip_char 63 v) QUERY (set_query (Some []) u)
                     end in
      match r with
      | Ok _ => (mkobj u' (attach_list u'), Ok tt)
      | Err e => (mkobj u' (o_list o), Err e)
      end
  | SetUsername v =>
      if cannot_have_username_password_port u then (o, Ok tt)
      else (mkobj (set_username (utf8_percent_encode v SAFE_USERINFO false) u) (o_list o), Ok tt)
  end.

(** parse.py:2092-2101 [URLSearchParams._update] *)
Definition params_update (E : env) (l : pairs) (u : urlrec) : urlrec :=
  match sp_str l with
  | [] => potentially_rstrip E (set_query None u)
  | s => set_query (Some s) u
  end.

(** A mutating call on [url.search_params]. *)
Definition params_op (E : env) (op : sp_op) (o : urlobj) : urlobj :=
  let l := sp_apply op (o_list o) in mkobj (params_update E l (o_url o)) l.

(** One call by a user on a URL object; histories are lists of these. A
    raising setter leaves the object in the state reached. *)
Inductive call := CSet (s : setter) | CParams (op : sp_op).
Definition do_call (E : env) (c : call) (o : urlobj) : urlobj :=
  match c with
  | CSet s => fst (set_attr E s o)
  | CParams op => params_op E op o
  end.
Definition do_calls (E : env) (cs : list call) (o : urlobj) : urlobj :=
  fold_left (fun o c => do_call E c o) cs o.

(* ---------- urlparse ---------- *)

(** urllib.parse.ParseResult *)
Record parse_result := mkpr {
  pr_scheme : str; pr_netloc : str; pr_path : str; pr_params : str; pr_query : str; pr_fragment : str }.

(** parse.py:463-494 *)
Definition to_parse_result (u : urlrec) (allow_fragments : bool) : parse_result :=
  let hostname := serialize_host u in
  let h := match port u with Some p => hostname ++ $":" ++ dec_str p | None => hostname end in
  let netloc :=
    (if includes_credentials u
     then username u ++ (match password u with [] => [] | p => $":" ++ p end) ++ $"@"
     else []) ++ h in
  let (p, params) := split1 59 (serialize_path u) in
  let q := match query u with Some q => q | None => [] end in
  if allow_fragments
  then mkpr (scheme u) netloc p params q (match fragment u with Some f => f | None => [] end)
  else
    let f := match fragment u with Some (c :: t) => 35 :: c :: t | _ => [] end in
    match q, params with
    | _ :: _, _ => mkpr (scheme u) netloc p params (q ++ f) []
    | [], _ :: _ => mkpr (scheme u) netloc p (params ++ f) q []
    | [], [] => mkpr (scheme u) netloc (p ++ f) params q []
    end.
Definition urlparse (E : env) (s : str) (base : option str) (encoding : str) (allow_fragments : bool)
  : res parse_result :=
  match snd (parse_url (with_validity E false) s
               (match base with Some b => BStr b | None => BNone end) encoding) with
  | Ok u => Ok (to_parse_result u allow_fragments)
  | Err e => Err e
  end.
