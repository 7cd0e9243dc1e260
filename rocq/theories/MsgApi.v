(** The URL class of UrlApi.v with the texts of log messages and exceptions (parse.py:2323-2836). *)
From Coq Require Import Ascii String.
From Coq Require Import NArith ZArith Bool Arith List.
From Verif Require Import PyStr PyInt Codec Env HostModel UrlRecord Parser SearchParams UrlApi Repr Message MsgHost MsgParser MsgValidators.
Import ListNotations.
Open Scope N_scope.

(** a call without a ValidityState *)
Definition unchecked (X : menv) : menv :=
  {| m_env := with_validity (m_env X) false; m_print := m_print X; m_icu_code := m_icu_code X |}.

Section Api.
Context (X : menv).
Local Notation E := (m_env X).

(** parse.py:2380-2385 *)
Definition m_url_new (s : str) (base : base_arg) : MW urlobj :=
  u <w m_parse_url (unchecked X) s base UTF8 ;; mw_ret (mkobj u (attach_list u)).

(** parse.py:2435-2467 *)
Definition m_can_parse (s : str) (base : base_arg) (v : option mstate) : mres bool * mstate :=
  let st := ms_start v in
  let (l, r) := m_parse_url (checking X) s base UTF8 in
  (match r with
   | MOk _ => MOk true
   | MErr e t => if is_url_error e then MOk false else MErr e t
   end, ms_apply l st).

(** [BasicURLParser.parse(value, url=url, state_override=so)] *)
Definition m_reparse (value : str) (so : pstate) (u : urlrec) : list entry * (urlrec * mres unit) :=
  m_parse_into (unchecked X) value None UTF8 (Some so) u.

Definition m_with_url (o : urlobj) (r : list entry * (urlrec * mres unit)) : list entry * (urlobj * mres unit) :=
  (fst r, (mkobj (fst (snd r)) (o_list o), snd (snd r))).

(** The property setters (parse.py:2499-2511, 2542-2548, 2570-2576, 2593-2596,
    2637-2643, 2665-2674, 2697-2706, 2727-2733, 2755-2768, 2830-2836). *)
Definition m_set_attr (s : setter) (o : urlobj) : list entry * (urlobj * mres unit) :=
  let u := o_url o in
  match s with
  | SetHash v =>
      match v with
      | [] => ([], (mkobj (potentially_rstrip E (set_fragment None u)) (o_list o), MOk tt))
      | _ => m_with_url o (m_reparse (strip_char 35 v) FRAGMENT (set_fragment (Some []) u))
      end
  | SetHost v => if has_opaque_path u then ([], (o, MOk tt)) else m_with_url o (m_reparse v HOST u)
  | SetHostname v => if has_opaque_path u then ([], (o, MOk tt)) else m_with_url o (m_reparse v HOSTNAME u)
  | SetHref v =>
      let (l, r) := m_parse_new (unchecked X) v None UTF8 in
      (l, match r with
          | MOk u' => (mkobj u' (attach_list u'), MOk tt)
          | MErr e t => (o, MErr e t)
          end)
  | SetPassword v =>
      if cannot_have_username_password_port u then ([], (o, MOk tt))
      else ([], (mkobj (set_password (utf8_percent_encode v SAFE_USERINFO false) u) (o_list o), MOk tt))
  | SetPathname v =>
      if has_opaque_path u then ([], (o, MOk tt))
      else m_with_url o (m_reparse v PATH_START (set_path (PList []) u))
  | SetPort v =>
      if cannot_have_username_password_port u then ([], (o, MOk tt))
      else match v with
           | [] => ([], (mkobj (set_port None u) (o_list o), MOk tt))
           | _ => m_with_url o (m_reparse v PORT u)
           end
  | SetProtocol v => m_with_url o (m_reparse (v ++ $":") SCHEME_START u)
  | SetSearch v =>
      let '(l, (u', r)) := match v with
                           | [] => ([], (potentially_rstrip E (set_query None u), MOk tt))
                           | _ => m_reparse (strip_char 63 v) QUERY (set_query (Some []) u)
                           end in
      (l, match r with
          | MOk _ => (mkobj u' (attach_list u'), MOk tt)
          | MErr e t => (mkobj u' (o_list o), MErr e t)
          end)
  | SetUsername v =>
      if cannot_have_username_password_port u then ([], (o, MOk tt))
      else ([], (mkobj (set_username (utf8_percent_encode v SAFE_USERINFO false) u) (o_list o), MOk tt))
  end.
End Api.
