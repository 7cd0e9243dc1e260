(** Vocabulary of the URL-level properties, written from the URL Standard and not
    from the code: special schemes and default ports, dot segments, the invariant
    of URL records, references. Only the record type, the string type and string
    equality of the model are used. *)
From Coq Require Import Ascii String.
From Coq Require Import NArith ZArith Bool Arith List.
From Verif Require Import PyStr Codec Env HostModel UrlRecord Parser.
Import ListNotations.
Open Scope N_scope.

(** "ASCII lowercase" *)
Definition std_lower1 (c : N) : N := if (65 <=? c) && (c <=? 90) then c + 32 else c.
Definition std_lower (s : list N) : list N := map std_lower1 s.
Definition std_alpha (c : N) : bool := ((65 <=? c) && (c <=? 90)) || ((97 <=? c) && (c <=? 122)).
Definition std_digit (c : N) : bool := (48 <=? c) && (c <=? 57).

(** "special scheme" and "default port" *)
Definition std_special_schemes : list (list N * option N) :=
  [($"ftp", Some 21); ($"file", None); ($"http", Some 80); ($"https", Some 443); ($"ws", Some 80); ($"wss", Some 443)].
Definition std_special (sch : list N) : Prop := In sch (map fst std_special_schemes).
Definition std_default_port (sch : list N) (p : N) : Prop := In (sch, Some p) std_special_schemes.

(** the text of a scheme: a letter, then letters, digits, '+', '-', '.' *)
Definition std_scheme_char (c : N) : bool := std_alpha c || std_digit c || (c =? 43) || (c =? 45) || (c =? 46).
Definition std_scheme (s : list N) : bool :=
  match s with c :: t => std_alpha c && forallb std_scheme_char t | [] => false end.

(** "C0 control or space", "ASCII tab or newline" *)
Definition std_c0_space (c : N) : bool := c <=? 32.
Definition std_tab_newline (c : N) : bool := (c =? 9) || (c =? 10) || (c =? 13).
(** without the trailing C0 controls and spaces *)
Fixpoint std_rstrip (s : list N) : list N :=
  match s with
  | [] => []
  | c :: t => match std_rstrip t with [] => if std_c0_space c then [] else [c] | r => c :: r end
  end.
Definition std_strip_tabs (s : list N) : list N := filter (fun c => negb (std_tab_newline c)) s.

(** "single-dot" and "double-dot URL path segment" *)
Definition std_single_dot (s : list N) : bool :=
  existsb (str_eqb (std_lower s)) [$"."; $"%2e"].
Definition std_double_dot (s : list N) : bool :=
  existsb (str_eqb (std_lower s)) [$".."; $".%2e"; $"%2e."; $"%2e%2e"].

(** "normalized Windows drive letter" *)
Definition std_drive_letter (s : list N) : bool :=
  match s with [a; b] => std_alpha a && (b =? 58) | _ => false end.

(** The invariant of URL records (C29). *)
Record url_invariant (u : urlrec) : Prop := {
  inv_scheme : std_scheme (scheme u) = true /\ std_lower (scheme u) = scheme u;
  inv_special_host : std_special (scheme u) -> uhost u <> None;
  inv_special_path : std_special (scheme u) -> exists s l, path u = PList (s :: l);
  inv_special_empty : std_special (scheme u) -> scheme u <> $"file" -> uhost u <> Some (HStr []);
  inv_opaque : forall s, path u = POpaque s -> uhost u = None;
  inv_creds : username u <> [] \/ password u <> [] \/ port u <> None ->
              uhost u <> None /\ uhost u <> Some (HStr []) /\ scheme u <> $"file";
  inv_port : forall p, port u = Some p -> p <= 65535 }.

(** one segment of a list path (C36) *)
Definition clean_segment (sch s : list N) : Prop :=
  std_single_dot s = false /\ std_double_dot s = false /\
  ~ In 47 s /\ ~ In 63 s /\ ~ In 35 s /\ (std_special sch -> ~ In 92 s).

(** text with the backslashes before the first '?' or '#' replaced by '/' (C45) *)
Fixpoint slashed (s : list N) : list N :=
  match s with
  | [] => []
  | c :: t => if (c =? 63) || (c =? 35) then s else (if c =? 92 then 47 else c) :: slashed t
  end.

(** the number of segments left after walking through path segments, where '..'
    removes one and cannot go below zero (C74) *)
Fixpoint net_depth (d : nat) (pieces : list (list N)) : nat :=
  match pieces with
  | [] => d
  | p :: ps => net_depth (if std_double_dot p then pred d else if std_single_dot p then d else S d) ps
  end.
