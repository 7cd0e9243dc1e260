(** Reading the table of registered schemes when the module is imported (parse.py:146-153): gzip.open
    in text mode, str.split, csv.DictReader with the dialect "excel", list.remove.
    Simplified: decompression is not modelled, the bytes of the decompressed file are SchemeFile.SHIPPED. *)
From Coq Require Import Ascii String.
From Coq Require Import NArith Bool Arith List.
From Verif Require Import PyStr.
Import ListNotations.
Open Scope N_scope.

Inductive load_error :=
| Undecodable      (* UnicodeDecodeError of the text layer *)
| CsvNul           (* _csv.Error "line contains NUL", before Python 3.11 *)
| CsvNewline       (* _csv.Error "new-line character seen in unquoted field" *)
| CsvLimit         (* _csv.Error "field larger than field limit (131072)" *)
| NoColumn         (* KeyError of x["URI Scheme"] *)
| NotListed.       (* ValueError of list.remove *)
Inductive loaded (A : Type) := Got (a : A) | Bad (e : load_error).
Arguments Got {A}.
Arguments Bad {A}.

(** io.TextIOWrapper with newline=None: CR LF and CR become LF *)
Fixpoint universal (s : str) : str :=
  match s with
  | [] => []
  | c :: t =>
      if c =? 13 then
        match t with
        | d :: t' => if d =? 10 then 10 :: universal t' else 10 :: universal t
        | [] => [10]
        end
      else c :: universal t
  end.

(** Modules/_csv.c: the states of parse_process_char without those of escapechar *)
Inductive cstate := START_RECORD | START_FIELD | IN_FIELD | IN_QUOTED | QUOTE_IN_QUOTED | EAT_CRNL.
Record reader := mkr { r_state : cstate; r_field : str; r_fields : list str }.
Definition r_reset : reader := mkr START_RECORD [] [].
Definition FIELD_LIMIT : N := 131072.
(** parse_add_char *)
Definition add_char (c : N) (st : cstate) (r : reader) : loaded reader :=
  if FIELD_LIMIT <=? N.of_nat (length (r_field r)) then Bad CsvLimit
  else Got (mkr st (r_field r ++ [c]) (r_fields r)).
(** parse_save_field *)
Definition save_field (st : cstate) (r : reader) : reader := mkr st [] (r_fields r ++ [r_field r]).
Definition to (st : cstate) (r : reader) : reader := mkr st (r_field r) (r_fields r).
Definition is_nl (c : N) : bool := (c =? 10) || (c =? 13).
Definition start_field (c : N) (r : reader) : loaded reader :=
  if is_nl c then Got (save_field EAT_CRNL r)
  else if c =? 34 then Got (to IN_QUOTED r)
  else if c =? 44 then Got (save_field START_FIELD r)
  else add_char c IN_FIELD r.
(** parse_process_char of a character of the line *)
Definition process_char (c : N) (r : reader) : loaded reader :=
  match r_state r with
  | START_RECORD => if is_nl c then Got (to EAT_CRNL r) else start_field c r
  | START_FIELD => start_field c r
  | IN_FIELD =>
      if is_nl c then Got (save_field EAT_CRNL r)
      else if c =? 44 then Got (save_field START_FIELD r)
      else add_char c IN_FIELD r
  | IN_QUOTED => if c =? 34 then Got (to QUOTE_IN_QUOTED r) else add_char c IN_QUOTED r
  | QUOTE_IN_QUOTED =>
      if c =? 34 then add_char c IN_QUOTED r
      else if c =? 44 then Got (save_field START_FIELD r)
      else if is_nl c then Got (save_field EAT_CRNL r)
      else add_char c IN_FIELD r
  | EAT_CRNL => if is_nl c then Got r else Bad CsvNewline
  end.
(** parse_process_char of EOL *)
Definition process_eol (r : reader) : reader :=
  match r_state r with
  | START_RECORD | IN_QUOTED => r
  | START_FIELD | IN_FIELD | QUOTE_IN_QUOTED => save_field START_RECORD r
  | EAT_CRNL => to START_RECORD r
  end.
(** [nul] says whether the interpreter accepts U+0000 in a line (Python 3.11 and later) *)
Fixpoint process_line (nul : bool) (line : str) (r : reader) : loaded reader :=
  match line with
  | [] => Got (process_eol r)
  | c :: t =>
      if (c =? 0) && negb nul then Bad CsvNul
      else match process_char c r with Got r => process_line nul t r | Bad e => Bad e end
  end.
(** Reader_iternext until it stops: the records and the exception at the end, if any *)
Fixpoint records (nul : bool) (lines : list str) (r : reader) : list (list str) * option load_error :=
  match lines with
  | [] =>
      (match r_state r, r_field r with
       | IN_QUOTED, _ | _, _ :: _ => [r_fields r ++ [r_field r]]
       | _, [] => []
       end, None)
  | line :: rest =>
      match process_line nul line r with
      | Bad e => ([], Some e)
      | Got r =>
          match r_state r with
          | START_RECORD => let (rs, e) := records nul rest r_reset in (r_fields r :: rs, e)
          | _ => records nul rest r
          end
      end
  end.

(** d[key] of [d = dict(zip(fieldnames, row))] completed with None for missing values: of equal
    names the last counts; values without a name are stored under the key None *)
Fixpoint dict_get (names row : list str) (key : str) : option (option str) :=
  match names with
  | [] => None
  | n :: names' =>
      match dict_get names' (tl row) key with
      | Some v => Some v
      | None => if str_eqb n key then Some (hd_error row) else None
      end
  end.
(** [[x["URI Scheme"] for x in csv.DictReader(...)]] after the first record; empty records are skipped *)
Fixpoint column (names : list str) (rows : list (list str)) (e : option load_error) : loaded (list (option str)) :=
  match rows with
  | [] => match e with Some e => Bad e | None => Got [] end
  | [] :: rows => column names rows e
  | row :: rows =>
      match dict_get names row $"URI Scheme" with
      | None => Bad NoColumn
      | Some v => match column names rows e with Got vs => Got (v :: vs) | Bad e => Bad e end
      end
  end.
Definition scheme_column (nul : bool) (text : str) : loaded (list (option str)) :=
  match records nul (split 10 text) r_reset with
  | ([], Some e) => Bad e
  | ([], None) => Got []
  | (names :: rows, e) => column names rows e
  end.

(** list.remove *)
Fixpoint remove_first (x : str) (l : list (option str)) : loaded (list (option str)) :=
  match l with
  | [] => Bad NotListed
  | v :: t =>
      match v with
      | Some s => if str_eqb s x then Got t else match remove_first x t with Got t' => Got (v :: t') | Bad e => Bad e end
      | None => match remove_first x t with Got t' => Got (v :: t') | Bad e => Bad e end
      end
  end.
(** parse.py:146-153: [dec] is the decoder of the locale's encoding, which gzip.open uses when it is
    given no encoding; None when it raises UnicodeDecodeError *)
Definition load_schemes (nul : bool) (dec : list N -> option str) (file : list N) : loaded (list (option str)) :=
  match dec file with
  | None => Bad Undecodable
  | Some t =>
      match scheme_column nul (universal t) with
      | Bad e => Bad e
      | Got l => remove_first $"shttp (OBSOLETE)" l
      end
  end.
