(** Vocabulary of the properties of URL objects: the objects a program can hold,
    the components of a record, what a setter owns, origins. *)
From Coq Require Import Ascii String.
From Coq Require Import NArith ZArith Bool Arith List.
From Verif Require Import PyStr PyInt Codec Env HostModel UrlRecord Parser SearchParams UrlApi SpecText SpecHost SpecUrl.
Import ListNotations.
Open Scope N_scope.

(** arguments are Python strings *)
Definition text_of (s : setter) : list N :=
  match s with
  | SetHash v | SetHost v | SetHostname v | SetHref v | SetPassword v | SetPathname v | SetPort v | SetProtocol v
  | SetSearch v | SetUsername v => v
  end.
Definition op_text_ok (op : sp_op) : Prop :=
  match op with
  | OpAppend n v | OpSet n v => is_pystr n /\ is_pystr (py_str v)
  | OpDelete n _ => is_pystr n
  | OpSort => True
  end.
Definition call_ok (c : call) : Prop :=
  match c with CSet s => is_pystr (text_of s) | CParams op => op_text_ok op end.

(** Every URL object of every execution: constructed without a base, with a base
    string or with another URL object as base, then changed by any number of
    setter calls (raising or not) and search-params mutations. *)
Inductive reached (E : env) : urlobj -> Prop :=
| reached_new s o : is_pystr s -> url_new E s BNone = Ok o -> reached E o
| reached_str s b o : is_pystr s -> is_pystr b -> url_new E s (BStr b) = Ok o -> reached E o
| reached_join s b o : is_pystr s -> reached E b -> url_new E s (BRec (o_url b)) = Ok o -> reached E o
| reached_call c o : call_ok c -> reached E o -> reached E (do_call E c o).

(** components *)
Inductive component := CScheme | CUsername | CPassword | CHost | CPort | CPath | CQuery | CFragment.
Definition agree (c : component) (u v : urlrec) : Prop :=
  match c with
  | CScheme => scheme u = scheme v
  | CUsername => username u = username v
  | CPassword => password u = password v
  | CHost => uhost u = uhost v
  | CPort => port u = port v
  | CPath => path u = path v
  | CQuery => query u = query v
  | CFragment => fragment u = fragment v
  end.
(** what a setter may write (href replaces the whole record) *)
Definition own (s : setter) : list component :=
  match s with
  | SetHash _ => [CFragment]
  | SetHost _ => [CHost; CPort]
  | SetHostname _ => [CHost]
  | SetHref _ => [CScheme; CUsername; CPassword; CHost; CPort; CPath; CQuery; CFragment]
  | SetPassword _ => [CPassword]
  | SetPathname _ => [CPath]
  | SetPort _ => [CPort]
  | SetProtocol _ => [CScheme; CPort]
  | SetSearch _ => [CQuery]
  | SetUsername _ => [CUsername]
  end.
(** the strip of an opaque path: exactly its trailing spaces go, and only when
    neither query nor fragment is left *)
Definition space_stripped (u v : urlrec) : Prop :=
  exists p w, path u = POpaque (p ++ w) /\ path v = POpaque p /\ Forall (fun c => c = 32) w /\
              (forall q, p <> q ++ [32]) /\ query v = None /\ fragment v = None.

(** a port text int() or the range check refuses *)
Definition bad_port_text (E : env) (d : list N) : Prop :=
  d <> [] /\ exists n, std_radix_value 10 d 0 = Some n /\
  (65535 < n \/ exists l, int_limit E = Some l /\ l < N.of_nat (length d)).

(** "cannot have a username/password/port" and "has an opaque path" *)
Definition std_no_authority (u : urlrec) : Prop :=
  uhost u = None \/ uhost u = Some (HStr []) \/ scheme u = $"file".
Definition std_opaque (u : urlrec) : Prop := exists s, path u = POpaque s.

(** schemes whose origin is a tuple *)
Definition std_network_scheme (s : list N) : Prop :=
  In s [$"ftp"; $"http"; $"https"; $"ws"; $"wss"].

(** "same origin", "same origin-domain" (HTML Standard) on tuple origins *)
Definition std_same_origin (a b : origin) : Prop :=
  og_scheme a = og_scheme b /\ og_host a = og_host b /\ og_port a = og_port b.
Definition std_same_origin_domain (a b : origin) : Prop :=
  (og_scheme a = og_scheme b /\ og_domain a = og_domain b /\ og_domain a <> None) \/
  (std_same_origin a b /\ og_domain a = None /\ og_domain b = None).

(** the base argument of the constructor: nothing, a string, the record of a URL object *)
Definition base_reached (E : env) (base : base_arg) : Prop :=
  match base with BNone => True | BStr b => is_pystr b | BRec u => exists o, reached E o /\ u = o_url o end.
