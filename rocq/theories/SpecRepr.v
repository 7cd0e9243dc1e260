(** The part of Python's grammar for literals that reprs use (The Python Language
    Reference, sections 2.4 and 6.2), as a reader: the value that a text stands for. *)
From Coq Require Import Ascii String.
From Coq Require Import NArith Bool Arith List.
From Verif Require Import PyStr Env HostModel UrlRecord UrlApi SpecText SpecUrl SpecParser Repr.
Import ListNotations.
Open Scope N_scope.

(** the value of a hex digit, of [w] hex digits, and what follows them *)
Definition read_hex1 (c : N) : option N :=
  if (48 <=? c) && (c <=? 57) then Some (c - 48)
  else if (97 <=? c) && (c <=? 102) then Some (c - 87)
  else if (65 <=? c) && (c <=? 70) then Some (c - 55)
  else None.
Fixpoint read_hex (w : nat) (v : N) (s : list N) : option (N * list N) :=
  match w, s with
  | O, _ => Some (v, s)
  | S w', c :: t => match read_hex1 c with Some d => read_hex w' (v * 16 + d) t | None => None end
  | S _, [] => None
  end.
(** escape sequences (2.4.1.1), after the backslash; octal ones, \N{...}, \a, \b, \f, \v and unknown ones are
    not used by repr() *)
Definition read_escape (s : list N) : option (N * list N) :=
  match s with
  | [] => None
  | c :: t =>
      if (c =? 92) || (c =? 39) || (c =? 34) then Some (c, t)
      else if c =? 110 then Some (10, t) else if c =? 114 then Some (13, t) else if c =? 116 then Some (9, t)
      else if c =? 120 then read_hex 2 0 t else if c =? 117 then read_hex 4 0 t else if c =? 85 then read_hex 8 0 t
      else None
  end.
(** a string literal after its opening quote; [n] bounds the number of steps *)
Fixpoint read_string (n : nat) (quote : N) (s : list N) : option (list N * list N) :=
  match n, s with
  | S m, c :: t =>
      if c =? quote then Some ([], t)
      else if (c =? 10) || (c =? 13) then None
      else match (if c =? 92 then read_escape t else Some (c, t)) with
           | Some (x, r) => match read_string m quote r with Some (l, r') => Some (x :: l, r') | None => None end
           | None => None
           end
  | _, _ => None
  end.
Fixpoint read_digits (s : list N) : list N * list N :=
  match s with
  | [] => ([], [])
  | c :: t => if std_digit c then let (d, r) := read_digits t in (c :: d, r) else ([], s)
  end.
Fixpoint skip_blanks (s : list N) : list N := match s with c :: t => if c =? 32 then skip_blanks t else s | [] => [] end.
Fixpoint expect (p s : list N) : option (list N) :=
  match p, s with
  | [], _ => Some s
  | a :: p', c :: s' => if a =? c then expect p' s' else None
  | _ :: _, [] => None
  end.

(** a literal: None, a decimal integer, a string, a list or tuple display; "(x)" is x and "(x,)" a tuple *)
Fixpoint read_lit (n : nat) (s : list N) : option (pyobj * list N) :=
  match n, s with
  | S m, c :: t =>
      if (c =? 39) || (c =? 34) then match read_string m c t with Some (x, r) => Some (PStr x, r) | None => None end
      else if std_digit c then let (d, r) := read_digits s in Some (PInt (std_decimal d), r)
      else if c =? 91 then match read_items m 93 t with Some (l, _, r) => Some (PSeq false l, r) | None => None end
      else if c =? 40 then
        match read_items m 41 t with
        | Some ([x], false, r) => Some (x, r)
        | Some (l, _, r) => Some (PSeq true l, r)
        | None => None
        end
      else match expect $"None" s with Some r => Some (PNone, r) | None => None end
  | _, _ => None
  end
(** items separated by commas up to [close]; the boolean: a comma follows the last item *)
with read_items (n : nat) (close : N) (s : list N) : option (list pyobj * bool * list N) :=
  match n, s with
  | S m, c :: t =>
      if c =? close then Some ([], true, t)
      else match read_lit m s with
           | None => None
           | Some (x, []) => None
           | Some (x, c' :: r) =>
               if c' =? close then Some ([x], false, r)
               else if c' =? 44
               then match read_items m close (skip_blanks r) with Some (l, b, r') => Some (x :: l, b, r') | None => None end
               else None
           end
  | _, _ => None
  end.
(** the text is a literal with the value [o] *)
Definition reads (s : list N) (o : pyobj) : Prop := exists n, read_lit n s = Some (o, []).

(** the arguments of a call "name(key=literal, ...)" *)
Fixpoint read_name (s : list N) : list N * list N :=
  match s with
  | [] => ([], [])
  | c :: t => if (65 <=? c) && (c <=? 90) || (97 <=? c) && (c <=? 122) then let (a, r) := read_name t in (c :: a, r) else ([], s)
  end.
Fixpoint read_args (n : nat) (s : list N) : option (list (list N * pyobj) * list N) :=
  match n with
  | O => None
  | S m =>
      let (k, r) := read_name s in
      match expect $"=" r with
      | None => None
      | Some r =>
          match read_lit m r with
          | None => None
          | Some (x, r) =>
              match expect $")" r, expect $"," r with
              | Some r, _ => Some ([(k, x)], r)
              | _, Some r => match read_args m (skip_blanks r) with Some (l, r') => Some ((k, x) :: l, r') | None => None end
              | _, _ => None
              end
          end
      end
  end.
Definition reads_call (s name : list N) (args : list (list N * pyobj)) : Prop :=
  exists n r, expect name s = Some (40 :: r) /\ read_args n r = Some (args, []).

(** The record with the given attributes: what URLRecord(scheme=..., ...) makes. *)
Definition host_value (o : pyobj) (h : option host) : Prop :=
  match o, h with
  | PNone, None => True
  | PStr s, Some (HStr s') => s = s'
  | PInt n, Some (HIPv4 n') => n = n'
  | PSeq true l, Some (HIPv6 l') => l = map PInt l'
  | _, _ => False
  end.
Definition text_value (o : pyobj) (t : option (list N)) : Prop :=
  match o, t with PNone, None => True | PStr s, Some s' => s = s' | _, _ => False end.
Definition port_value (o : pyobj) (p : option N) : Prop :=
  match o, p with PNone, None => True | PInt n, Some m => n = m | _, _ => False end.
Definition path_value (o : pyobj) (p : upath) : Prop :=
  match o, p with PStr s, POpaque s' => s = s' | PSeq false l, PList l' => l = map PStr l' | _, _ => False end.
Definition record_value (args : list (list N * pyobj)) (u : urlrec) : Prop :=
  match args with
  | [(k1, PStr a); (k2, PStr b); (k3, PStr c); (k4, d); (k5, e); (k6, f); (k7, g); (k8, h)] =>
      [k1; k2; k3; k4; k5; k6; k7; k8] = [$"scheme"; $"username"; $"password"; $"host"; $"port"; $"path"; $"query"; $"fragment"] /\
      scheme u = a /\ username u = b /\ password u = c /\ host_value d (uhost u) /\ port_value e (port u) /\
      path_value f (path u) /\ text_value g (query u) /\ text_value h (fragment u)
  | _ => False
  end.

(** the texts of the record are Python strings; the integers in it *)
Definition pystr_rec (u : urlrec) : Prop :=
  is_pystr (scheme u) /\ is_pystr (username u) /\ is_pystr (password u) /\ (forall s, uhost u = Some (HStr s) -> is_pystr s) /\
  (match path u with POpaque s => is_pystr s | PList l => Forall is_pystr l end) /\ (forall s, query u = Some s -> is_pystr s) /\ (forall s, fragment u = Some s -> is_pystr s).
Definition record_ints (u : urlrec) : list N :=
  (match uhost u with Some (HIPv4 n) => [n] | Some (HIPv6 l) => l | _ => [] end) ++ (match port u with Some n => [n] | None => [] end).

(** the value of a list of pairs of strings *)
Definition pair_value (nv : list N * list N) : pyobj := PSeq true [PStr (fst nv); PStr (snd nv)].

(** the attributes that a URL object's repr shows *)
Definition url_names : list (list N) :=
  [$"href"; $"origin"; $"protocol"; $"username"; $"password"; $"host"; $"hostname"; $"port"; $"pathname"; $"search"; $"hash"].
Definition url_texts (o : urlobj) (origin : list N) : list (list N) :=
  [get_href o; origin; get_protocol o; get_username o; get_password o; get_host o; get_hostname o; get_port o; get_pathname o; get_search o; get_hash o].
