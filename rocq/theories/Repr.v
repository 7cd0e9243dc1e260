(** repr() of the values that URL objects consist of, and the __repr__ methods of
    URLRecord (parse.py:1674-1687), URLSearchParams (2069-2071) and URL (2405-2421). *)
From Coq Require Import Ascii String.
From Coq Require Import NArith ZArith Bool Arith List.
From Verif Require Import PyStr PyInt Codec Env HostModel UrlRecord Parser SearchParams UrlApi.
Import ListNotations.
Open Scope N_scope.

(** the Python objects concerned: None, non-negative int, str, list, tuple *)
Inductive pyobj := PNone | PInt (n : N) | PStr (s : str) | PSeq (tuple : bool) (l : list pyobj).

(** CPython's unicode_repr (Objects/unicodeobject.c). [pr]: str.isprintable for characters
    above 127. *)
Definition hex_fixed (w : nat) (n : N) : str := let d := hex_str n in repeat 48 (w - length d) ++ d.
Definition repr_char (pr : N -> bool) (quote c : N) : str :=
  if (c =? quote) || (c =? 92) then [92; c]
  else if c =? 9 then $"\t" else if c =? 10 then $"\n" else if c =? 13 then $"\r"
  else if (c <? 32) || (c =? 127) then $"\x" ++ hex_fixed 2 c
  else if c <? 127 then [c]
  else if pr c then [c]
  else if c <=? 255 then $"\x" ++ hex_fixed 2 c
  else if c <=? 65535 then $"\u" ++ hex_fixed 4 c
  else $"\U" ++ hex_fixed 8 c.
Definition repr_quote (s : str) : N := if mem 39 s && negb (mem 34 s) then 34 else 39.
Definition repr_str (pr : N -> bool) (s : str) : str :=
  let q := repr_quote s in q :: flat_map (repr_char pr q) s ++ [q].

(** list_repr and tuplerepr; int's repr raises ValueError above the digit limit *)
Fixpoint all_ok {A} (l : list (res A)) : res (list A) :=
  match l with
  | [] => Ok []
  | Ok a :: t => match all_ok t with Ok r => Ok (a :: r) | Err e => Err e end
  | Err e :: _ => Err e
  end.
Fixpoint py_repr (E : env) (pr : N -> bool) (o : pyobj) : res str :=
  match o with
  | PNone => Ok $"None"
  | PInt n => if repr_fails E n then Err EValue else Ok (dec_str n)
  | PStr s => Ok (repr_str pr s)
  | PSeq tuple l =>
      match all_ok (map (py_repr E pr) l) with
      | Err e => Err e
      | Ok ts => Ok (if tuple then $"(" ++ join $", " ts ++ (match ts with [_] => $"," | _ => [] end) ++ $")"
                     else $"[" ++ join $", " ts ++ $"]")
      end
  end.

(** an f-string with parts "key={value!r}" separated by ", " *)
Definition repr_item (E : env) (pr : N -> bool) (kv : str * pyobj) : res str :=
  match py_repr E pr (snd kv) with Ok t => Ok (fst kv ++ $"=" ++ t) | Err e => Err e end.
Definition repr_call (E : env) (pr : N -> bool) (name : str) (items : list (str * pyobj)) : res str :=
  match all_ok (map (repr_item E pr) items) with
  | Ok ts => Ok (name ++ $"(" ++ join $", " ts ++ $")")
  | Err e => Err e
  end.

Definition host_obj (h : option host) : pyobj :=
  match h with
  | None => PNone
  | Some (HStr s) => PStr s
  | Some (HIPv4 n) => PInt n
  | Some (HIPv6 l) => PSeq true (map PInt l)
  end.
Definition port_obj (p : option N) : pyobj := match p with Some n => PInt n | None => PNone end.
Definition text_obj (o : option str) : pyobj := match o with Some s => PStr s | None => PNone end.
Definition path_obj (p : upath) : pyobj := match p with POpaque s => PStr s | PList l => PSeq false (map PStr l) end.

(** parse.py:1674-1687 [URLRecord.__repr__] *)
Definition record_repr (E : env) (pr : N -> bool) (u : urlrec) : res str :=
  repr_call E pr $"URLRecord"
    [($"scheme", PStr (scheme u)); ($"username", PStr (username u)); ($"password", PStr (password u));
     ($"host", host_obj (uhost u)); ($"port", port_obj (port u)); ($"path", path_obj (path u));
     ($"query", text_obj (query u)); ($"fragment", text_obj (fragment u))].

(** parse.py:2069-2071 [URLSearchParams.__repr__] *)
Definition pairs_obj (l : pairs) : pyobj := PSeq false (map (fun nv => PSeq true [PStr (fst nv); PStr (snd nv)]) l).
Definition params_repr (E : env) (pr : N -> bool) (l : pairs) : res str :=
  match py_repr E pr (pairs_obj l) with Ok t => Ok ($"URLSearchParams(" ++ t ++ $")") | Err e => Err e end.

(** parse.py:2405-2421 [URL.__repr__] *)
Definition url_repr (E : env) (pr : N -> bool) (o : urlobj) : res str :=
  match get_origin E o with
  | Err e => Err e
  | Ok og =>
      match repr_call E pr $"URL"
        [($"href", PStr (get_href o)); ($"origin", PStr og); ($"protocol", PStr (get_protocol o)); ($"username", PStr (get_username o));
         ($"password", PStr (get_password o)); ($"host", PStr (get_host o)); ($"hostname", PStr (get_hostname o)); ($"port", PStr (get_port o));
         ($"pathname", PStr (get_pathname o)); ($"search", PStr (get_search o)); ($"hash", PStr (get_hash o))] with
      | Ok t => Ok ($"<" ++ t ++ $">")
      | Err e => Err e
      end
  end.
