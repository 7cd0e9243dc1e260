(** Vocabulary of the laws on references against file URLs (C134). *)
From Coq Require Import Ascii String.
From Coq Require Import NArith Bool List.
From Verif Require Import PyStr Env HostModel UrlRecord SpecText SpecUrl SpecParser SpecReference SpecAuthority.
Import ListNotations.
Open Scope N_scope.

(** the drive of a path: its first segment with a '/', if that is a normalized
    Windows drive letter *)
Definition drive (l : list (list N)) : list N :=
  match l with s :: _ => if std_drive_letter s then s ++ [47] else [] | [] => [] end.
(** the directory of the path of a file URL: a path that is only a drive letter
    keeps it, any other path loses its last segment *)
Definition file_directory (l : list (list N)) : list N :=
  match l with [s] => drive [s] | _ => directory l end.
(** a reference that begins with a drive letter replaces drive and directory *)
Definition unless_drive (t d : list N) : list N := if std_starts_drive_letter t then [] else d.
(** the text of a host of a file URL: no character that ends an authority, not ending
    with a character that is stripped from inputs; it may be empty *)
Definition file_host_text (a : list N) : Prop :=
  Forall (fun c => ~ ends_authority $"file" c) a /\ std_rstrip a = a.
(** the file URL with the same host, where "localhost" is no host *)
Definition file_like (u : urlrec) : urlrec :=
  mkurl $"file" [] [] (match uhost u with Some (HStr s) => Some (HStr (if str_eqb s $"localhost" then [] else s)) | h => h end) None (path u) (query u) (fragment u).
