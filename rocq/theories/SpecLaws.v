(** Vocabulary of the algebraic laws of the setters: which calls have nothing to
    do with each other. *)
From Coq Require Import NArith Bool List.
From Verif Require Import PyStr Codec Env HostModel UrlRecord Parser SearchParams UrlApi.
Import ListNotations.

(** calls on the user name, the password and the port *)
Inductive on_user_port : setter -> Prop :=
| on_username v : on_user_port (SetUsername v)
| on_password v : on_user_port (SetPassword v)
| on_port v : on_user_port (SetPort v).
(** calls on the scheme and the host *)
Inductive on_scheme_host : setter -> Prop :=
| on_protocol v : on_scheme_host (SetProtocol v)
| on_host v : on_scheme_host (SetHost v)
| on_hostname v : on_scheme_host (SetHostname v).
Inductive on_hash : call -> Prop := on_hash_ v : on_hash (CSet (SetHash v)).
(** the query is written by the search setter and by the search params *)
Inductive on_query : call -> Prop :=
| on_search v : on_query (CSet (SetSearch v))
| on_params op : on_query (CParams op).

(** Query and fragment depend on each other in a URL with an opaque path: the
    path loses its trailing spaces when the last of the two is removed. *)
Inductive independent (o : urlobj) : call -> call -> Prop :=
| ind_user_password v w : independent o (CSet (SetUsername v)) (CSet (SetPassword w))
| ind_user_port v w : independent o (CSet (SetUsername v)) (CSet (SetPort w))
| ind_password_port v w : independent o (CSet (SetPassword v)) (CSet (SetPort w))
| ind_user_port_path s v : on_user_port s -> independent o (CSet s) (CSet (SetPathname v))
| ind_user_port_query s c : on_user_port s -> on_query c -> independent o (CSet s) c
| ind_user_port_hash s c : on_user_port s -> on_hash c -> independent o (CSet s) c
| ind_path_query v c : on_query c -> independent o (CSet (SetPathname v)) c
| ind_path_hash v c : on_hash c -> independent o (CSet (SetPathname v)) c
| ind_scheme_host_query s c : on_scheme_host s -> on_query c -> independent o (CSet s) c
| ind_scheme_host_hash s c : on_scheme_host s -> on_hash c -> independent o (CSet s) c
| ind_query_hash c d : (forall p, path (o_url o) <> POpaque p) -> on_query c -> on_hash d -> independent o c d.

(** whether a call raises *)
Definition outcome (E : env) (c : call) (o : urlobj) : res unit :=
  match c with CSet s => snd (set_attr E s o) | CParams _ => Ok tt end.
