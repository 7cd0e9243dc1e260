(** Texts of validation errors and exceptions: printf-style formatting, ValidityState.prepend
    (parse.py:3042-3051), _Logger.error/info (563-579), and the effects of code that logs and raises
    with texts. *)
From Coq Require Import Ascii String.
From Coq Require Import NArith ZArith Bool Arith List.
From Verif Require Import PyStr PyInt Codec Env HostModel UrlRecord Parser Repr.
Import ListNotations.
Open Scope N_scope.

(** what is outside /repo, as far as messages show it *)
Record menv := {
  m_env : env;
  m_print : N -> bool;                 (* str.isprintable above 127 *)
  m_icu_code : N -> str -> str         (* repr() of ICUError.args[0], an icu.ErrorCode, when ICU fails, by options and domain *)
}.

(** parse.py:63 VALIDATION_ERROR_TYPE_RE = ((\w+-)+(\w+)): searched from the left. The run of
    word characters and hyphens at a position has to end at a colon and consist of two or more
    non-empty words. [\w] is ASCII here: the only other character in a message is U+2019, which is
    not a word character. *)
Definition is_word (c : N) : bool := mem c ASCII_ALPHANUMERIC || (c =? 95).
Fixpoint word_run (s : str) : str * str :=
  match s with
  | c :: t => if is_word c || (c =? 45) then let (a, r) := word_run t in (c :: a, r) else ([], s)
  | [] => ([], [])
  end.
Definition type_at (s : str) : option str :=
  let (a, r) := word_run s in
  let words := split 45 a in
  match r with
  | c :: _ => if (c =? 58) && (1 <? length words)%nat && forallb (fun w => negb (length w =? 0)%nat) words
              then Some a else None
  | [] => None
  end.
Fixpoint type_search (s : str) : option str :=
  match type_at s with
  | Some a => Some a
  | None => match s with [] => None | _ :: t => type_search t end
  end.
(** parse.py:3046-3049 *)
Definition error_type (msg : str) : str := match type_search msg with Some a => a | None => $"undefined" end.

(** [msg % args] with the conversions %r, %s, %d, %04X and %% *)
Definition hex_upper_str (n : N) : str := map hex_upper (digits 16 n).
Definition hex4 (n : N) : str := let d := hex_upper_str n in repeat 48 (4 - length d) ++ d.
Definition conv_s (X : menv) (o : pyobj) : res str :=
  match o with PStr s => Ok s | _ => py_repr (m_env X) (m_print X) o end.
Definition conv_d (X : menv) (o : pyobj) : res str :=
  match o with PInt _ => py_repr (m_env X) (m_print X) o | _ => Err EType end.
Definition conv_x (o : pyobj) : res str := match o with PInt n => Ok (hex4 n) | _ => Err EType end.
Definition cat (a b : res str) : res str :=
  match a with
  | Err e => Err e
  | Ok x => match b with Err e => Err e | Ok y => Ok (x ++ y) end
  end.
Fixpoint py_mod (X : menv) (fmt : str) (args : list pyobj) : res str :=
  match fmt with
  | [] => match args with [] => Ok [] | _ => Err EType end
  | c :: t =>
      if negb (c =? 37) then cat (Ok [c]) (py_mod X t args)
      else
        match t with
        | [] => Err EValue
        | k :: t1 =>
            if k =? 37 then cat (Ok [37]) (py_mod X t1 args)
            else
              match args with
              | [] => Err EType
              | o :: args' =>
                  if k =? 114 then cat (py_repr (m_env X) (m_print X) o) (py_mod X t1 args')
                  else if k =? 115 then cat (conv_s X o) (py_mod X t1 args')
                  else if k =? 100 then cat (conv_d X o) (py_mod X t1 args')
                  else
                    match t1 with
                    | k2 :: k3 :: t3 =>
                        if (k =? 48) && (k2 =? 52) && (k3 =? 88) then cat (conv_x o) (py_mod X t3 args')
                        else Err EValue
                    | _ => Err EValue
                    end
              end
        end
  end.
(** parse.py:3050 *)
Definition format_msg (X : menv) (msg : str) (args : list pyobj) : res str :=
  match args with [] => Ok msg | _ => py_mod X msg args end.

(** one log call: log.info or log.error, the type, and the description unless formatting failed *)
Inductive level := INFO | ERROR.
Record entry := mkentry { e_level : level; e_type : str; e_text : option str }.
(** results; an exception raised by the interpreter itself has no text here *)
Inductive mres (A : Type) := MOk (a : A) | MErr (e : exc) (text : option str).
Arguments MOk {A} _. Arguments MErr {A} _ _.

(** log.info / log.error with a ValidityState: prepend inserts the type, then formats, so a failure
    leaves the type behind. Without one the logging package gets the text; it swallows a failure. *)
Definition noted (X : menv) (lv : level) (msg : str) (args : list pyobj) : list entry * mres unit :=
  match format_msg X msg args with
  | Ok t => ([mkentry lv (error_type msg) (Some t)], MOk tt)
  | Err e => ([mkentry lv (error_type msg) None], if has_validity (m_env X) then MErr e None else MOk tt)
  end.
(** raise e(f"...."), the f-string written as a format *)
Definition raised {A} (X : menv) (e : exc) (fmt : str) (args : list pyobj) : mres A :=
  match py_mod X fmt args with Ok t => MErr e (Some t) | Err e' => MErr e' None end.

(** code without a URL record *)
Definition MW (A : Type) := (list entry * mres A)%type.
Definition mw_ret {A} (a : A) : MW A := ([], MOk a).
Definition mw_exc {A} (e : exc) : MW A := ([], MErr e None).
Definition mw_bind {A B} (m : MW A) (f : A -> MW B) : MW B :=
  match m with
  | (l, MOk a) => let (l', r) := f a in (l ++ l', r)
  | (l, MErr e t) => (l, MErr e t)
  end.
Notation "x <w m ;; k" := (mw_bind m (fun x => k)) (at level 61, m at next level, right associativity).
Notation "m >w k" := (mw_bind m (fun _ => k)) (at level 61, right associativity).
Definition mw_note (X : menv) (msg : str) (args : list pyobj) : MW unit := noted X INFO msg args.
(** log.error(type + text) followed by raise e(text') *)
Definition mw_fail {A} (X : menv) (msg : str) (args : list pyobj) (e : exc) (fmt : str) (args' : list pyobj) : MW A :=
  noted X ERROR msg args >w ([], raised X e fmt args').

(** code that changes a URL record *)
Definition MM (A : Type) := urlrec -> list entry * (urlrec * mres A).
Definition mm_ret {A} (a : A) : MM A := fun u => ([], (u, MOk a)).
Definition mm_raise {A} (X : menv) (e : exc) (fmt : str) (args : list pyobj) : MM A := fun u => ([], (u, raised X e fmt args)).
Definition mm_exc {A} (e : exc) : MM A := fun u => ([], (u, MErr e None)).
Definition mm_get : MM urlrec := fun u => ([], (u, MOk u)).
Definition mm_bind {A B} (m : MM A) (f : A -> MM B) : MM B := fun u =>
  match m u with
  | (l, (u', MOk a)) => let (l', r) := f a u' in (l ++ l', r)
  | (l, (u', MErr e t)) => (l, (u', MErr e t))
  end.
Definition mm_lift {A} (w : MW A) : MM A := fun u => (fst w, (u, snd w)).
(** an action of Parser.v that logs nothing *)
Definition act {A} (m : M A) : MM A := fun u =>
  match snd (m u) with
  | (u', Ok a) => ([], (u', MOk a))
  | (u', Err e) => ([], (u', MErr e None))
  end.
Definition mm_note (X : menv) (msg : str) (args : list pyobj) : MM unit := mm_lift (noted X INFO msg args).
Notation "x <m m ;; k" := (mm_bind m (fun x => k)) (at level 61, m at next level, right associativity).
Notation "m >m k" := (mm_bind m (fun _ => k)) (at level 61, right associativity).
Definition mm_when (b : bool) (m : MM unit) : MM unit := if b then m else mm_ret tt.
Definition mm_fail {A} (X : menv) (msg : str) (args : list pyobj) (e : exc) (fmt : str) (args' : list pyobj) : MM A :=
  mm_lift (noted X ERROR msg args) >m mm_raise X e fmt args'.
Definition mm_set (f : urlrec -> urlrec) : MM unit := fun u => ([], (f u, MOk tt)).
