(** Vocabulary of the laws on references (C89 - C93): the text that the parser
    reads, the base that a base argument stands for. *)
From Coq Require Import Ascii String.
From Coq Require Import NArith ZArith Bool Arith List.
From Verif Require Import PyStr Codec Env HostModel UrlRecord Parser SpecText SpecUrl.
Import ListNotations.
Open Scope N_scope.

(** without the leading C0 controls and spaces *)
Fixpoint std_lstrip (s : list N) : list N :=
  match s with c :: t => if std_c0_space c then std_lstrip t else s | [] => [] end.
(** without leading and trailing C0 controls and spaces, without tabs and newlines *)
Definition std_trim (s : list N) : list N := std_strip_tabs (std_rstrip (std_lstrip s)).

(** the record that a base argument stands for *)
Definition base_record (E : env) (base : base_arg) (enc : list N) (b : urlrec) : Prop :=
  base = BRec b \/ exists t, base = BStr t /\ snd (parse_url E t BNone enc) = Ok b.

(** no base, or one that is a URL *)
Definition usable (E : env) (base : base_arg) (enc : list N) : Prop := base = BNone \/ exists b, base_record E base enc b.

(** The inputs that are not simply the text before the '?' or '#' with something
    added: nothing but the scheme "file:" or nothing at all against a base with
    scheme file (see C38), and nothing at all against a base with an opaque path. *)
Definition bare_reference (E : env) (base : base_arg) (enc : list N) (s : list N) : Prop :=
  exists b, base_record E base enc b /\
    ((std_trim s = [] \/ std_lower (std_trim s) = $"file:") /\ scheme b = $"file" \/
     std_trim s = [] /\ exists x, path b = POpaque x).

(** the same result, with one component changed *)
Definition on_ok (f : urlrec -> urlrec) (r : res urlrec) : res urlrec :=
  match r with Ok u => Ok (f u) | Err e => Err e end.

(** a result that differs by its query, which is [q] percent-encoded: in UTF-8, or
    else as the given encoding encodes it *)
Definition query_replaced (E : env) (enc : list N) (q : list N) (a b : res urlrec) : Prop :=
  match a, b with
  | Ok u, Ok v => exists x, v = set_query (Some x) u /\
      (normalize_encoding E enc = $"utf-8" \/ ~ std_special (scheme u) \/ scheme u = $"ws" \/ scheme u = $"wss" ->
         x = std_percent_encode (fun c => SpecText.query_set c || ((c =? 39) && existsb (str_eqb (scheme u)) (map fst std_special_schemes))) false q) /\
      string_percent_encode (enc_of E (query_encoding u (normalize_encoding E enc))) q
        (if existsb (str_eqb (scheme u)) (map fst std_special_schemes) then SAFE_SPECIAL_QUERY else SAFE_QUERY) false = Some x
  | Err e, Err e' => e = e'
  | _, _ => False
  end.

(** the text of a URL up to and including its authority *)
Definition site (u : urlrec) : list N := href (set_fragment None (set_query None (set_path (PList []) u))).
(** a slash; for special schemes also a backslash *)
Definition std_slash (sch : list N) (c : N) : Prop := c = 47 \/ (std_special sch /\ c = 92).
Definition starts (P : N -> Prop) (s : list N) : Prop := match s with c :: _ => P c | [] => False end.
(** begins like an absolute URL: a scheme and ':' *)
Definition has_scheme (s : list N) : Prop := exists a t, s = a ++ 58 :: t /\ std_scheme a = true.
(** the directory of a path: every segment but the last, with its '/' *)
Definition directory (l : list (list N)) : list N := flat_map (fun s => s ++ [47]) (removelast l).
