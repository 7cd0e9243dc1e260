(** The URL parser on a heap (C42, C76). URL records are objects that the parser
    updates in place, and a list path is a mutable list that is shared by every
    record whose [path] refers to it. Parser.v works on values instead; HeapProofs.v
    proves that both compute the same and what the heap version leaves alone. *)
From Coq Require Import Ascii String.
From Coq Require Import NArith ZArith Bool Arith List.
From Verif Require Import PyStr PyInt Codec Env HostModel UrlRecord Parser.
Import ListNotations.
Open Scope N_scope.

(** [path]: an immutable str, or a reference to a list *)
Inductive hpath := HText (s : str) | HRef (cell : nat).
(** a URLRecord; the [path] component of [o_fields] is not used *)
Record obj := mkobj { o_fields : urlrec; o_path : hpath }.
Record heap := mkheap { objs : list obj; cells : list (list str) }.

Definition null_obj : obj := mkobj new_url (HText []).
Definition deref (h : heap) (p : hpath) : upath :=
  match p with HText s => POpaque s | HRef l => PList (nth l (cells h) []) end.
Definition view (h : heap) (o : obj) : urlrec := set_path (deref h (o_path o)) (o_fields o).
Definition obj_at (h : heap) (i : nat) : obj := nth i (objs h) null_obj.
(** the record that the object [i] is at the moment *)
Definition read (h : heap) (i : nat) : urlrec := view h (obj_at h i).

Fixpoint upd {A} (i : nat) (v : A) (l : list A) : list A :=
  match l, i with
  | [], _ => []
  | _ :: t, O => v :: t
  | x :: t, S i' => x :: upd i' v t
  end.
Definition put_obj (i : nat) (o : obj) (h : heap) : heap := mkheap (upd i o (objs h)) (cells h).
Definition put_cell (l : nat) (v : list str) (h : heap) : heap := mkheap (objs h) (upd l v (cells h)).
Definition add_cell (v : list str) (h : heap) : heap := mkheap (objs h) (cells h ++ [v]).

(* ---------- monad ---------- *)
Definition HM (A : Type) := heap -> log * (heap * res A).
Definition hret {A} (a : A) : HM A := fun h => ([], (h, Ok a)).
Definition hraise {A} (e : exc) : HM A := fun h => ([], (h, Err e)).
Definition hlog (v : verr) : HM unit := fun h => ([v], (h, Ok tt)).
Definition hfail {A} (v : verr) (e : exc) : HM A := fun h => ([v], (h, Err e)).
Definition hbind {A B} (m : HM A) (f : A -> HM B) : HM B := fun h =>
  match m h with
  | (l, (h', Ok a)) => let (l', r) := f a h' in (l ++ l', r)
  | (l, (h', Err e)) => (l, (h', Err e))
  end.
Notation "x <-- m ;; k" := (hbind m (fun x => k)) (at level 61, m at next level, right associativity).
Notation "m --;; k" := (hbind m (fun _ => k)) (at level 61, right associativity).
Definition hwhen (b : bool) (m : HM unit) : HM unit := if b then m else hret tt.

(** reading the object [i] *)
Definition hget (i : nat) : HM urlrec := fun h => ([], (h, Ok (read h i))).
(** assignments to fields other than [path] *)
Definition hset (i : nat) (f : urlrec -> urlrec) : HM unit := fun h =>
  let o := obj_at h i in ([], (put_obj i (mkobj (f (o_fields o)) (o_path o)) h, Ok tt)).
(** [url.path = s] for a str *)
Definition hset_text (i : nat) (s : str) : HM unit := fun h =>
  ([], (put_obj i (mkobj (o_fields (obj_at h i)) (HText s)) h, Ok tt)).
(** [url.path = l] for a new list *)
Definition hset_list (i : nat) (l : list str) : HM unit := fun h =>
  ([], (put_obj i (mkobj (o_fields (obj_at h i)) (HRef (length (cells h)))) (add_cell l h), Ok tt)).
(** [url.path = copy.copy(base.path)]: copy.copy makes a new list of a list and
    returns a str unchanged *)
Definition hcopy_path (i b : nat) : HM unit := fun h =>
  match o_path (obj_at h b) with
  | HText s => hset_text i s h
  | HRef l => hset_list i (nth l (cells h) []) h
  end.
(** updates of the list that [url.path] refers to; [e] is raised for a str *)
Definition hmutate (i : nat) (e : exc) (f : list str -> list str) : HM unit := fun h =>
  match o_path (obj_at h i) with
  | HText _ => ([], (h, Err e))
  | HRef l => ([], (put_cell l (f (nth l (cells h) [])) h, Ok tt))
  end.
(** [url.path.append(x)] *)
Definition happend (i : nat) (x : str) : HM unit := hmutate i EAttr (fun l => l ++ [x]).
(** parse.py:1864-1877 [shorten_path]: [del path[-1]] *)
Definition hshorten (i : nat) : HM unit :=
  u <-- hget i ;; hmutate i EAssert (shorten_segs (scheme u)).
(** [url.path += x]: concatenation of str, in-place extension of a list *)
Definition hextend (i : nat) (x : str) : HM unit := fun h =>
  match o_path (obj_at h i) with
  | HText s => hset_text i (s ++ x) h
  | HRef l => ([], (put_cell l (nth l (cells h) [] ++ map (fun c => [c]) x) h, Ok tt))
  end.
(** code that neither reads the base nor assigns to [url.path]: what it does to
    the other fields is taken from Parser.v *)
Definition hfields {A} (i : nat) (m : M A) : HM A := fun h =>
  match m (read h i) with
  | (l, (u, r)) => (l, (put_obj i (mkobj u (o_path (obj_at h i))) h, r))
  end.

(* ---------- the state functions that touch the path or the base ---------- *)
(** parse.py:3133-3189 *)
Definition hparse_file (me : nat) (rest : str) (base : option nat) : HM (pstate * nat) :=
  hset me (set_scheme $"file") --;;
  hset me (set_host (Some (HStr []))) --;;
  let c := cur rest in
  if iscp c $"/\" then
    hwhen (isc c 92) (hlog VInvalidReverseSolidus) --;; hret (FILE_SLASH, 1%nat)
  else
    match base with
    | Some bi =>
        b <-- hget bi ;;
        if str_eqb (scheme b) $"file" then
          hset me (set_host (uhost b)) --;;
          hcopy_path me bi --;;
          hset me (set_query (query b)) --;;
          if isc c 63 then hset me (set_query (Some [])) --;; hret (QUERY, 1%nat)
          else if isc c 35 then hset me (set_fragment (Some [])) --;; hret (FRAGMENT, 1%nat)
          else if negb (iseof c) then
            hset me (set_query None) --;;
            (if negb (starts_with_windows_drive_letter rest)
             then hshorten me
             else hlog VFileDriveLetter --;; hset_list me []) --;;
            hret (PATH, 0%nat)
          else hret (PATH, 0%nat)
        else hret (PATH, 0%nat)
    | None => hret (PATH, 0%nat)
    end.

(** parse.py:3239-3275 *)
Definition hparse_file_slash (me : nat) (rest : str) (base : option nat) : HM (pstate * nat) :=
  let c := cur rest in
  if iscp c $"/\" then
    hwhen (isc c 92) (hlog VInvalidReverseSolidus) --;; hret (FILE_HOST, 1%nat)
  else
    match base with
    | Some bi =>
        b <-- hget bi ;;
        if str_eqb (scheme b) $"file" then
          hset me (set_host (uhost b)) --;;
          b <-- hget bi ;;
          match path b with
          | PList (s :: _) =>
              hwhen (negb (starts_with_windows_drive_letter rest)
                    && is_normalized_windows_drive_letter s)
                (u <-- hget me ;; match path u with POpaque _ => hraise EAssert | PList _ => happend me s end)
          | _ => hret tt
          end --;;
          hret (PATH, 0%nat)
        else hret (PATH, 0%nat)
    | None => hret (PATH, 0%nat)
    end.

(** parse.py:3402-3442 *)
Definition hparse_no_scheme (me : nat) (rest : str) (base : option nat) : HM (pstate * nat) :=
  let c := cur rest in
  match base with
  | None => hfail VMissingScheme EURLParse
  | Some bi =>
      b <-- hget bi ;;
      if has_opaque_path b && negb (isc c 35) then hfail VMissingScheme EURLParse
      else if has_opaque_path b && isc c 35 then
        hset me (set_scheme (scheme b)) --;;
        hcopy_path me bi --;;
        hset me (set_query (query b)) --;;
        hset me (set_fragment (Some [])) --;;
        hret (FRAGMENT, 1%nat)
      else if negb (str_eqb (scheme b) $"file") then hret (RELATIVE, 0%nat)
      else hret (FILE, 0%nat)
  end.

(** parse.py:3444-3502 *)
Fixpoint hopaque_path_loop (me : nat) (rest : str) (i : nat) : HM (pstate * nat) :=
  match rest with
  | [] => hret (EOF, i)
  | c :: t =>
      if c =? 63 then hset me (set_query (Some [])) --;; hret (QUERY, S i)
      else if c =? 35 then hset me (set_fragment (Some [])) --;; hret (FRAGMENT, S i)
      else
        hfields me (check_unit c t) --;;
        hextend me (utf8_percent_encode [c] SAFE_C0_CONTROL false) --;;
        hopaque_path_loop me t (S i)
  end.

(** parse.py:3504-3597 *)
Definition hpath_flush (me : nat) (c : cp) (buffer : str) : HM unit :=
  u <-- hget me ;;
  let buffer := utf8_percent_encode buffer SAFE_PATH false in
  let is_sep := isc c 47 || (is_special u && isc c 92) in
  if str_in buffer DOUBLE_DOT then
    hshorten me --;; hwhen (negb is_sep) (happend me [])
  else if str_in buffer SINGLE_DOT then
    hwhen (negb is_sep) (happend me [])
  else
    let empty_path := match path u with POpaque s => (length s =? 0)%nat
                                      | PList l => (length l =? 0)%nat end in
    let buffer :=
      if str_eqb (scheme u) $"file" && empty_path && is_windows_drive_letter buffer
      then firstn 1 buffer ++ $":" else buffer in
    happend me buffer.
Fixpoint hpath_loop (me : nat) (so : option pstate) (rest : str) (i : nat) (buffer : str) : HM (pstate * nat) :=
  match rest with
  | [] => hpath_flush me None buffer --;; hret (OPAQUE_PATH, i)
  | c :: t =>
      u <-- hget me ;;
      if (c =? 47) || (is_special u && (c =? 92)) || (negb (overridden so) && mem c $"?#")
      then
        hwhen (is_special u && (c =? 92)) (hlog VInvalidReverseSolidus) --;;
        hpath_flush me (Some c) buffer --;;
        if c =? 63 then hset me (set_query (Some [])) --;; hret (QUERY, S i)
        else if c =? 35 then hset me (set_fragment (Some [])) --;; hret (FRAGMENT, S i)
        else hpath_loop me so t (S i) []
      else hfields me (check_unit c t) --;; hpath_loop me so t (S i) (buffer ++ [c])
  end.

(** parse.py:3617-3658 *)
Definition hparse_path_start (me : nat) (rest : str) (so : option pstate) : HM (pstate * nat) :=
  let c := cur rest in
  u <-- hget me ;;
  if is_special u then
    hwhen (isc c 92) (hlog VInvalidReverseSolidus) --;;
    hret (PATH, if iscp c $"/\" then 1%nat else 0%nat)
  else if negb (overridden so) && isc c 63 then
    hset me (set_query (Some [])) --;; hret (QUERY, 1%nat)
  else if negb (overridden so) && isc c 35 then
    hset me (set_fragment (Some [])) --;; hret (FRAGMENT, 1%nat)
  else if negb (iseof c) then hret (PATH, if isc c 47 then 1%nat else 0%nat)
  else
    hwhen (overridden so && match uhost u with None => true | Some _ => false end) (happend me []) --;;
    hret (EOF, 0%nat).

(** parse.py:3785-3830 *)
Definition hparse_relative (me : nat) (rest : str) (base : option nat) : HM (pstate * nat) :=
  match base with
  | None => hraise EAssert
  | Some bi =>
      b <-- hget bi ;;
      if str_eqb (scheme b) $"file" then hraise EAssert
      else
        hset me (set_scheme (scheme b)) --;;
        let c := cur rest in
        u <-- hget me ;;
        if isc c 47 then hret (RELATIVE_SLASH, 1%nat)
        else if is_special u && isc c 92 then
          hlog VInvalidReverseSolidus --;; hret (RELATIVE_SLASH, 1%nat)
        else
          b <-- hget bi ;;
          hset me (set_username (username b)) --;;
          hset me (set_password (password b)) --;;
          hset me (set_host (uhost b)) --;;
          hset me (set_port (port b)) --;;
          hcopy_path me bi --;;
          hset me (set_query (query b)) --;;
          if isc c 63 then hset me (set_query (Some [])) --;; hret (QUERY, 1%nat)
          else if isc c 35 then hset me (set_fragment (Some [])) --;; hret (FRAGMENT, 1%nat)
          else if negb (iseof c) then
            hset me (set_query None) --;; hshorten me --;; hret (PATH, 0%nat)
          else hret (EOF, 0%nat)
  end.

(** parse.py:3832-3867 *)
Definition hparse_relative_slash (me : nat) (rest : str) (base : option nat) : HM (pstate * nat) :=
  let c := cur rest in
  u <-- hget me ;;
  if is_special u && iscp c $"/\" then
    hwhen (isc c 92) (hlog VInvalidReverseSolidus) --;;
    hret (SPECIAL_AUTHORITY_IGNORE_SLASHES, 1%nat)
  else if isc c 47 then hret (AUTHORITY, 1%nat)
  else
    match base with
    | None => hraise EAssert
    | Some bi =>
        b <-- hget bi ;;
        hset me (set_username (username b)) --;;
        hset me (set_password (password b)) --;;
        hset me (set_host (uhost b)) --;;
        hset me (set_port (port b)) --;;
        hret (PATH, 0%nat)
    end.

(** parse.py:3869-3961 *)
Definition hscheme_colon (me : nat) (base : option nat) (so : option pstate) (t : str) (i : nat) (buffer : str)
  : HM (pstate * nat) :=
  let buffer := lower buffer in
  u <-- hget me ;;
  if overridden so && scheme_blocked u buffer then hret (EOF, i)
  else
    hset me (set_scheme buffer) --;;
    if overridden so then
      hwhen (port_truthy (port u) && on_eqb (default_port buffer) (port u)) (hset me (set_port None)) --;;
      hret (EOF, i)
    else if str_eqb buffer $"file" then
      hwhen (negb (starts_with $"//" t)) (hlog VSpecialSchemeMissingSolidus) --;; hret (FILE, i)
    else
      same <-- match base with
               | Some bi => b <-- hget bi ;; hret (str_eqb (scheme b) buffer)
               | None => hret false
               end ;;
      if special_scheme buffer && same then hret (SPECIAL_RELATIVE_OR_AUTHORITY, i)
      else if special_scheme buffer then hret (SPECIAL_AUTHORITY_SLASHES, i)
      else if starts_with $"/" t then hret (PATH_OR_AUTHORITY, S i)
      else hset_text me [] --;; hret (OPAQUE_PATH, i).
Fixpoint hscheme_loop (me : nat) (base : option nat) (so : option pstate) (rest : str) (i : nat) (buffer : str)
  : HM (pstate * nat) :=
  match rest with
  | [] => if overridden so then hraise EURLParse else hret (NO_SCHEME, 0%nat)
  | c :: t =>
      if mem c ASCII_ALPHANUMERIC || mem c $"+-." then hscheme_loop me base so t (S i) (buffer ++ [c])
      else if c =? 58 then hscheme_colon me base so t (S i) buffer
      else if overridden so then hraise EURLParse else hret (NO_SCHEME, 0%nat)
  end.
Definition hparse_scheme (me : nat) (rest : str) (base : option nat) (so : option pstate) : HM (pstate * nat) :=
  match rest with
  | c :: t =>
      if mem c ASCII_ALPHA then hscheme_loop me base so t 1 [c]
      else if overridden so then hraise EURLParse else hret (NO_SCHEME, 0%nat)
  | [] => if overridden so then hraise EURLParse else hret (NO_SCHEME, 0%nat)
  end.

(* ---------- the driver ---------- *)
(** parse.py:4198-4305 *)
Definition hstep (E : env) (me : nat) (base : option nat) (encoding : str) (so : option pstate)
    (st : pstate) (rest : str) : HM (pstate * nat) :=
  match st with
  | SCHEME_START => hparse_scheme me rest base so
  | NO_SCHEME => hparse_no_scheme me rest base
  | SPECIAL_RELATIVE_OR_AUTHORITY => hfields me (parse_special_relative_or_authority rest)
  | PATH_OR_AUTHORITY => hfields me (parse_path_or_authority rest)
  | RELATIVE => hparse_relative me rest base
  | RELATIVE_SLASH => hparse_relative_slash me rest base
  | SPECIAL_AUTHORITY_SLASHES => hfields me (parse_special_authority_slashes rest)
  | SPECIAL_AUTHORITY_IGNORE_SLASHES => hfields me (parse_ignore_slashes rest)
  | AUTHORITY => hfields me (parse_authority rest)
  | HOST | HOSTNAME => hfields me (parse_host E rest so)
  | PORT => hfields me (parse_port E rest so)
  | FILE => hparse_file me rest base
  | FILE_SLASH => hparse_file_slash me rest base
  | FILE_HOST => hfields me (parse_file_host E rest so)
  | PATH_START => hparse_path_start me rest so
  | PATH => hpath_loop me so rest 0 []
  | OPAQUE_PATH => hopaque_path_loop me rest 0
  | QUERY => hfields me (parse_query E rest so encoding)
  | FRAGMENT => hfields me (parse_fragment rest)
  | SCHEME => hraise ENotImpl
  | EOF => hret (EOF, 0%nat)
  end.
Fixpoint hrun_fsm (fuel : nat) (E : env) (me : nat) (base : option nat) (encoding : str) (so : option pstate)
    (st : pstate) (rest : str) : HM unit :=
  match st with
  | EOF => hret tt
  | _ =>
      match fuel with
      | O => hraise EFuel
      | S f =>
          r <-- hstep E me base encoding so st rest ;;
          hrun_fsm f E me base encoding so (fst r) (skipn (snd r) rest)
      end
  end.
(** parse.py:4058-4322 with the record [me] given ... *)
Definition hparse_into (E : env) (me : nat) (urlstring : str) (base : option nat) (encoding : str)
    (so : option pstate) : HM unit :=
  hwhen (existsb is_tab_newline urlstring) (hlog VInvalidURLUnit) --;;
  hrun_fsm FSM_FUEL E me base (normalize_encoding E encoding) so
    (match so with Some st => st | None => SCHEME_START end) (remove_tabs urlstring).
(** ... and without it: [url = URLRecord()], whose path is a new empty list *)
Definition hnew : HM nat := fun h =>
  ([], (mkheap (objs h ++ [mkobj new_url (HRef (length (cells h)))]) (cells h ++ [[]]), Ok (length (objs h)))).
Definition hparse_new (E : env) (urlstring : str) (base : option nat) (encoding : str) : HM nat :=
  me <-- hnew ;;
  hwhen (needs_strip urlstring) (hlog VInvalidURLUnit) --;;
  hparse_into E me (strip_c0 urlstring) base encoding None --;;
  hret me.
(** parse.py:4325-4361 *)
Inductive hbase_arg := HBNone | HBStr (s : str) | HBRec (i : nat).
Definition hparse_url (E : env) (urlstring : str) (base : hbase_arg) (encoding : str) : HM nat :=
  b <-- (match base with
         | HBNone => hret None
         | HBRec i => hret (Some i)
         | HBStr s => i <-- hparse_new E s None encoding ;; hret (Some i)
         end) ;;
  hparse_new E urlstring b encoding.

(* ---------- histories ---------- *)
(** What the code does to records (BasicURLParser.parse, parse_url and the setters
    of URL): every program that uses the library is a sequence of these. [OpField]
    stands for an assignment to a field other than path. *)
Inductive hop :=
| OpParse (s : str) (base : hbase_arg) (encoding : str)              (* parse_url *)
| OpInto (i : nat) (s : str) (encoding : str) (so : option pstate)   (* BasicURLParser.parse(s, url=..) *)
| OpField (i : nat) (f : urlrec -> urlrec)                           (* url.query = None, ... *)
| OpText (i : nat) (s : str)                                         (* url.path = url.path.rstrip(), 278 *)
| OpNewPath (i : nat).                                               (* url.path = [], 2681 *)
(** the record that the operation may change *)
Definition target (o : hop) : option nat :=
  match o with OpParse _ _ _ => None | OpInto i _ _ _ | OpField i _ | OpText i _ | OpNewPath i => Some i end.
Definition hexec (E : env) (o : hop) (h : heap) : heap :=
  match o with
  | OpParse s base encoding => fst (snd (hparse_url E s base encoding h))
  | OpInto i s encoding so => fst (snd (hparse_into E i s None encoding so h))
  | OpField i f => fst (snd (hset i f h))
  | OpText i s => fst (snd (hset_text i s h))
  | OpNewPath i => fst (snd (hset_list i [] h))
  end.
(** the records named by an operation exist *)
Definition op_in (h : heap) (o : hop) : Prop :=
  match o with
  | OpParse _ (HBRec b) _ => (b < length (objs h))%nat
  | OpParse _ _ _ => True
  | OpInto i _ _ _ | OpField i _ | OpText i _ | OpNewPath i => (i < length (objs h))%nat
  end.
(** heaps that a program can produce *)
Inductive heap_reached (E : env) : heap -> Prop :=
| hr_empty : heap_reached E (mkheap [] [])
| hr_op h o : heap_reached E h -> op_in h o -> heap_reached E (hexec E o h).
