(** class URLSearchParams (parse.py:1880-2320) on its list of pairs. The link
    to a URL record ([_url], [_update], [attach]) is in UrlApi.v. *)
From Coq Require Import Ascii String.
From Coq Require Import NArith ZArith Bool Arith List.
From Verif Require Import PyStr PyInt Codec Env.
Import ListNotations.
Open Scope N_scope.

Definition pairs := list (str * str).

(** A Python value argument: a str, or a number given by its [str()]. A
    number never compares equal to a str. *)
Inductive pyval := PVStr (s : str) | PVNum (repr : str).
Definition py_str (v : pyval) : str := match v with PVStr s => s | PVNum s => s end.
(** [s == v] *)
Definition py_eq_str (s : str) (v : pyval) : bool :=
  match v with PVStr t => str_eqb s t | PVNum _ => false end.

(** [utf8_decode(string_percent_decode(name))] *)
Definition sp_norm (s : str) : str := utf8_decode (string_percent_decode s).
(** [utf8_decode(utf8_encode(str(x)))] *)
Definition sp_usv (v : pyval) : str := utf8_decode (utf8_encode (py_str v)).

(** parse.py:1948-1962: __init__ from a sequence of pairs *)
Definition sp_init_pairs (init : list (pyval * pyval)) : pairs :=
  map (fun nv => (sp_usv (fst nv), sp_usv (snd nv))) init.

(** [temp[k] = v] on an insertion-ordered dict *)
Fixpoint dict_set (k v : str) (d : pairs) : pairs :=
  match d with
  | [] => [(k, v)]
  | (k', v') :: t => if str_eqb k' k then (k', v) :: t else (k', v') :: dict_set k v t
  end.
(** parse.py:1963-1971: __init__ from a dict (given as its items) *)
Definition sp_init_dict (items : list (pyval * pyval)) : pairs :=
  fold_left (fun d nv => dict_set (sp_usv (fst nv)) (sp_usv (snd nv)) d) items [].

(** parse.py:1980-1982: __init__ from a string *)
Definition sp_init_str (init : str) : pairs :=
  parse_qsl (utf8_encode (if starts_with $"?" init then skipn 1 init else init)).

(** parse.py:2073-2087, 2089-2090 [__str__] *)
Definition sp_str (l : pairs) : str := urlencode l.

(** parse.py:1975-1976: __init__ from a URLSearchParams *)
Definition sp_copy (l : pairs) : pairs := sp_init_str (sp_str l).

(** parse.py:2103-2120 [append] *)
Definition sp_append (l : pairs) (name : str) (value : pyval) : pairs :=
  l ++ [(sp_norm name, sp_norm (py_str value))].

(** [list(enumerate(l))] *)
Fixpoint enumerate {A} (i : nat) (l : list A) : list (nat * A) :=
  match l with [] => [] | x :: t => (i, x) :: enumerate (S i) t end.
(** [l.pop(i)] / [del l[i]] *)
Definition pop {A} (i : nat) (l : list A) : list A := firstn i l ++ skipn (S i) l.

(** [value is not None and name_value[1] != value] *)
Definition value_differs (value : option pyval) (v : str) : bool :=
  match value with Some x => negb (py_eq_str v x) | None => false end.

(** parse.py:2132-2165 [delete]: walks a reversed snapshot of
    enumerate(self._list) and pops from the live list *)
Definition sp_delete (l : pairs) (name : str) (value : option pyval) : pairs :=
  let name := sp_norm name in
  fold_left (fun items iv =>
    if str_eqb (fst (snd iv)) name
    then if value_differs value (snd (snd iv)) then items else pop (fst iv) items
    else items) (rev (enumerate 0 l)) l.

(** parse.py:2177-2197 [get] *)
Fixpoint get_loop (l : pairs) (name : str) : option str :=
  match l with
  | [] => None
  | (n, v) :: t => if str_eqb n name then Some v else get_loop t name
  end.
Definition sp_get (l : pairs) (name : str) : option str := get_loop l (sp_norm name).

(** parse.py:2199-2224 [get_all] *)
Definition sp_get_all (l : pairs) (name : str) : list str :=
  let name := sp_norm name in map snd (filter (fun nv => str_eqb (fst nv) name) l).

(** parse.py:2226-2247 [has] *)
Fixpoint has_loop (l : pairs) (name : str) (value : option pyval) : bool :=
  match l with
  | [] => false
  | (n, v) :: t =>
      if str_eqb n name
      then if value_differs value v then has_loop t name value else true
      else has_loop t name value
  end.
Definition sp_has (l : pairs) (name : str) (value : option pyval) : bool :=
  has_loop l (sp_norm name) value.
(** parse.py:1997-2018 [__contains__] *)
Definition sp_contains (l : pairs) (name : str) : bool :=
  match sp_get l name with Some _ => true | None => false end.

(** parse.py:2257-2290 [set] *)
Fixpoint find_name (l : pairs) (name : str) (i : nat) : option nat :=
  match l with
  | [] => None
  | (n, _) :: t => if str_eqb n name then Some i else find_name t name (S i)
  end.
(** [items[i] = x] for an index in range *)
Definition set_item {A} (i : nat) (x : A) (l : list A) : list A := firstn i l ++ x :: skipn (S i) l.
(** [while index > found: if items[index][0] == name: del items[index]; index -= 1] *)
Fixpoint set_del_loop (index found : nat) (name : str) (items : pairs) : pairs :=
  match index with
  | O => items
  | S j => if (found <? index)%nat
           then set_del_loop j found name
                  (match nth_error items index with
                   | Some nv => if str_eqb (fst nv) name then pop index items else items
                   | None => items
                   end)
           else items
  end.
Definition sp_set (l : pairs) (name : str) (value : pyval) : pairs :=
  let name := sp_norm name in
  let value := sp_norm (py_str value) in
  match find_name l name 0 with
  | None => l ++ [(name, value)]
  | Some found =>
      let items := set_item found (name, value) l in
      set_del_loop (length items - 1) found name items
  end.

(** Code-unit order on strings: [icu.UnicodeString.__lt__] *)
Fixpoint units_ltb (a b : list N) : bool :=
  match a, b with
  | _, [] => false
  | [], _ :: _ => true
  | x :: a', y :: b' => (x <? y) || ((x =? y) && units_ltb a' b')
  end.
Definition name_ltb (a b : str * str) : bool := units_ltb (to_utf16 (fst a)) (to_utf16 (fst b)).
(** parse.py:2292-2313 [sort]: list.sort is a stable sort using only
    key(x) < key(y); modelled as insertion sort. *)
Fixpoint insert_pair (x : str * str) (l : pairs) : pairs :=
  match l with
  | [] => [x]
  | y :: t => if name_ltb y x then y :: insert_pair x t else x :: l
  end.
Fixpoint sp_sort (l : pairs) : pairs :=
  match l with [] => [] | x :: t => insert_pair x (sp_sort t) end.

(** parse.py:2020-2031 [__eq__] *)
Fixpoint pairs_eqb (a b : pairs) : bool :=
  match a, b with
  | [], [] => true
  | (n, v) :: a', (n', v') :: b' => str_eqb n n' && str_eqb v v' && pairs_eqb a' b'
  | _, _ => false
  end.

(** parse.py:2055-2071, 2249-2255, 2167-2175, 2315-2320: len, keys, values,
    entries *)
Definition sp_len (l : pairs) : nat := length l.
Definition sp_keys (l : pairs) : list str := map fst l.
Definition sp_values (l : pairs) : list str := map snd l.

(** The mutating operations, for histories. *)
Inductive sp_op :=
| OpAppend (name : str) (value : pyval)
| OpDelete (name : str) (value : option pyval)
| OpSet (name : str) (value : pyval)
| OpSort.
Definition sp_apply (op : sp_op) (l : pairs) : pairs :=
  match op with
  | OpAppend n v => sp_append l n v
  | OpDelete n v => sp_delete l n v
  | OpSet n v => sp_set l n v
  | OpSort => sp_sort l
  end.
