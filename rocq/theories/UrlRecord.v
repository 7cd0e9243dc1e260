(** URL records: class URLRecord (parse.py:1628-1877), and the state/log/
    exception monad [M] of code that mutates a URL record. *)
From Coq Require Import Ascii String.
From Coq Require Import NArith ZArith Bool Arith List.
From Verif Require Import PyStr PyInt Codec Env HostModel.
Import ListNotations.
Open Scope N_scope.

(** parse.py:1651 [path: list[str] | str] *)
Inductive upath := POpaque (s : str) | PList (segs : list str).

(** parse.py:1629-1661 (blob_url_entry is unused by the code and left out) *)
Record urlrec := mkurl {
  scheme : str; username : str; password : str; uhost : option host;
  port : option N; path : upath; query : option str; fragment : option str }.

(** [URLRecord()] *)
Definition new_url : urlrec := mkurl [] [] [] None None (PList []) None None.

Definition set_scheme v u := mkurl v (username u) (password u) (uhost u) (port u) (path u) (query u) (fragment u).
Definition set_username v u := mkurl (scheme u) v (password u) (uhost u) (port u) (path u) (query u) (fragment u).
Definition set_password v u := mkurl (scheme u) (username u) v (uhost u) (port u) (path u) (query u) (fragment u).
Definition set_host v u := mkurl (scheme u) (username u) (password u) v (port u) (path u) (query u) (fragment u).
Definition set_port v u := mkurl (scheme u) (username u) (password u) (uhost u) v (path u) (query u) (fragment u).
Definition set_path v u := mkurl (scheme u) (username u) (password u) (uhost u) (port u) v (query u) (fragment u).
Definition set_query v u := mkurl (scheme u) (username u) (password u) (uhost u) (port u) (path u) v (fragment u).
Definition set_fragment v u := mkurl (scheme u) (username u) (password u) (uhost u) (port u) (path u) (query u) v.

(** parse.py:1770-1788 *)
Definition is_special (u : urlrec) : bool := special_scheme (scheme u).
Definition is_not_special (u : urlrec) : bool := negb (special_scheme (scheme u)).

(** [host is None or (isinstance(host, str) and len(host) == 0)] *)
Definition null_or_empty_host (h : option host) : bool :=
  match h with None => true | Some (HStr []) => true | _ => false end.

(** parse.py:1705-1717 *)
Definition cannot_have_username_password_port (u : urlrec) : bool :=
  null_or_empty_host (uhost u) || str_eqb (scheme u) $"file".

(** parse.py:1735-1742 *)
Definition has_opaque_path (u : urlrec) : bool :=
  match path u with POpaque _ => true | PList _ => false end.

(** parse.py:1752-1760 *)
Definition includes_credentials (u : urlrec) : bool :=
  negb (length (username u) =? 0)%nat || negb (length (password u) =? 0)%nat.

(** parse.py:1816-1822 *)
Definition serialize_host (u : urlrec) : str :=
  match uhost u with Some h => host_serialize h | None => [] end.

(** parse.py:1824-1835 *)
Definition serialize_segs (segs : list str) : str := flat_map (fun s => 47 :: s) segs.
Definition serialize_path (u : urlrec) : str :=
  match path u with POpaque s => s | PList segs => serialize_segs segs end.

(** parse.py:1837-1862 *)
Definition serialize_url (u : urlrec) (exclude_fragment : bool) : str :=
  scheme u ++ $":"
  ++ (match uhost u with
      | Some h =>
          $"//"
          ++ (if includes_credentials u
              then username u
                   ++ (match password u with [] => [] | p => $":" ++ p end)
                   ++ $"@"
              else [])
          ++ host_serialize h
          ++ (match port u with Some p => $":" ++ dec_str p | None => [] end)
      | None => []
      end)
  ++ (match uhost u, path u with
      | None, PList ([] :: _ :: _) => $"/."
      | _, _ => []
      end)
  ++ serialize_path u
  ++ (match query u with Some q => $"?" ++ q | None => [] end)
  ++ (if exclude_fragment then []
      else match fragment u with Some f => $"#" ++ f | None => [] end).

(** parse.py:1744-1750 *)
Definition href (u : urlrec) : str := serialize_url u false.

(** parse.py:1719-1733 [URLRecord.equals] *)
Definition record_equals (u v : urlrec) (exclude_fragments : bool) : bool :=
  str_eqb (serialize_url u exclude_fragments) (serialize_url v exclude_fragments).

(* ---------- monad ---------- *)

(** Code that mutates the record in place, may log and may raise; mutations
    done before an exception stay. *)
Definition M (A : Type) := urlrec -> log * (urlrec * res A).
Definition ret {A} (a : A) : M A := fun u => ([], (u, Ok a)).
Definition raise {A} (e : exc) : M A := fun u => ([], (u, Err e)).
Definition logm (v : verr) : M unit := fun u => ([v], (u, Ok tt)).
Definition get : M urlrec := fun u => ([], (u, Ok u)).
Definition modify (f : urlrec -> urlrec) : M unit := fun u => ([], (f u, Ok tt)).
Definition bind {A B} (m : M A) (f : A -> M B) : M B := fun u =>
  match m u with
  | (l, (u', Ok a)) => let (l', r) := f a u' in (l ++ l', r)
  | (l, (u', Err e)) => (l, (u', Err e))
  end.
Definition lift {A} (w : W A) : M A := fun u => (fst w, (u, snd w)).
Definition fail {A} (v : verr) (e : exc) : M A := fun u => ([v], (u, Err e)).
Notation "x <- m ;; k" := (bind m (fun x => k)) (at level 61, m at next level, right associativity).
Notation "m ;; k" := (bind m (fun _ => k)) (at level 61, right associativity).
Definition when (b : bool) (m : M unit) : M unit := if b then m else ret tt.

(** result without the log *)
Definition run {A} (m : M A) (u : urlrec) : urlrec * res A := snd (m u).

(** parse.py:1864-1877 [shorten_path] *)
Definition shorten_segs (sch : str) (segs : list str) : list str :=
  match segs with
  | [] => []
  | [s] => if str_eqb sch $"file" && is_normalized_windows_drive_letter s then segs else []
  | _ => removelast segs
  end.
Definition shorten_path : M unit :=
  u <- get ;;
  match path u with
  | POpaque _ => raise EAssert
  | PList segs => modify (set_path (PList (shorten_segs (scheme u) segs)))
  end.

(** [url.path.append(x)] *)
Definition path_append (x : str) : M unit :=
  u <- get ;;
  match path u with
  | POpaque _ => raise EAttr
  | PList segs => modify (set_path (PList (segs ++ [x])))
  end.
