(** What URLSearchParams makes of an argument, case by case: URL Standard, section 6.2 (initialize, and
    Web IDL's conversions to USVString), extended to the objects that Python allows. *)
From Coq Require Import Ascii String.
From Coq Require Import NArith ZArith Bool Arith List.
From Verif Require Import PyStr PyInt Env UrlRecord Repr Args SpecText SpecParams.
Import ListNotations.
Open Scope N_scope.

(** [x] is a sized collection whose members are [l]: the characters of a string, the keys of a
    dict, the (name, value) tuples of a URLSearchParams *)
Inductive holds : arg -> list arg -> Prop :=
| h_str s : holds (AStr s) (map (fun c => AStr [c]) s)
| h_seq b l : holds (ASeq b l) l
| h_dict d : holds (ADict d) (map fst d)
| h_params p : holds (AParams p) (map (fun nv => ASeq true [AStr (fst nv); AStr (snd nv)]) p)
| h_other t s r l : holds (AOther t s r (Some l)) l.
Definition sized (x : arg) : Prop := exists l, holds x l.
Definition pair_like (x : arg) : Prop := exists a b, holds x [a; b].

(** classes with a meaning of their own as [init] *)
Definition known (x : arg) : Prop :=
  match x with ANum _ _ | AOther _ _ _ _ => False | _ => True end.

(** the names of a list of tuples in order of their first occurrence *)
Fixpoint firsts (l : list (list N)) : list (list N) :=
  match l with
  | [] => []
  | n :: t => n :: filter (fun m => if list_eq_dec N.eq_dec m n then false else true) (firsts t)
  end.

(** lists of scalar value strings *)
Definition scalars (l : list tuple) : Prop :=
  Forall (fun p => is_pystr (fst p) /\ surrogate_free (fst p) /\ is_pystr (snd p) /\ surrogate_free (snd p)) l.

Section S.
Context (E : env) (pr : N -> bool).

(** the tuple of the texts of two objects *)
Definition texts (a b : arg) (p : tuple) : Prop :=
  exists s t, arg_str E pr a = Some s /\ arg_str E pr b = Some t /\ p = (scalar_value_string s, scalar_value_string t).
Definition no_text (a : arg) : Prop := arg_str E pr a = None.

Inductive init_spec : arg -> made -> Prop :=
| i_none : init_spec ANone (Made [] None)
(** "If init is a string and starts with U+003F (?), remove the first code point from init"; parse *)
| i_str s : (forall t, s <> 63 :: t) -> init_spec (AStr s) (Made (std_urlencoded_parse (std_utf8_encode (scalar_value_string s))) None)
| i_qmark s : init_spec (AStr (63 :: s)) (Made (std_urlencoded_parse (std_utf8_encode (scalar_value_string s))) None)
(** "for each innerSequence of init: append (innerSequence[0], innerSequence[1])" *)
| i_pairs b l ps :
    Forall2 (fun x p => exists n v, holds x [n; v] /\ texts n v p) l ps -> init_spec (ASeq b l) (Made ps None)
(** "if innerSequence's size is not 2, then throw" *)
| i_size b p x r m t :
    Forall pair_like p -> holds x m -> length m <> 2%nat -> arg_str E pr (ASeq b (p ++ x :: r)) = Some t ->
    init_spec (ASeq b (p ++ x :: r)) (ValueErr ($"Expected a sequence of name-value pairs, but got " ++ t))
| i_unsized b p x r :
    Forall pair_like p -> ~ sized x ->
    init_spec (ASeq b (p ++ x :: r)) (TypeErr ($"object of type '" ++ arg_type x ++ $"' has no len()"))
(** "if init is a record, then for each name -> value of init, append": a record of Web IDL has one
    entry per name, in the order of the first ones, with the value of the last one *)
| i_dict d conv ps :
    Forall2 (fun nv p => texts (fst nv) (snd nv) p) d conv ->
    map fst ps = firsts (map fst conv) -> (forall n, std_get ps n = std_get (rev conv) n) ->
    init_spec (ADict d) (Made ps None)
(** the live list of a URL record *)
| i_record u : init_spec (ARecord u)
    (Made (std_urlencoded_parse (std_utf8_encode (scalar_value_string (match query u with Some q => q | None => [] end)))) (Some u))
(** a copy *)
| i_params l : init_spec (AParams l) (Made l None)
| i_type x : ~ known x -> init_spec x (TypeErr ($"Expected string, not " ++ arg_type x))
(** an int with too many digits, or a collection with one, has no text *)
| i_size_limit b p x r m :
    Forall pair_like p -> holds x m -> length m <> 2%nat -> no_text (ASeq b (p ++ x :: r)) -> init_spec (ASeq b (p ++ x :: r)) LimitErr
| i_pair_limit b l x n v : Forall pair_like l -> In x l -> holds x [n; v] -> no_text n \/ no_text v -> init_spec (ASeq b l) LimitErr
| i_dict_limit d n v : In (n, v) d -> no_text n \/ no_text v -> init_spec (ADict d) LimitErr.

(** the strings that the constructor converts *)
Inductive converts : arg -> list N -> Prop :=
| c_str s : converts (AStr s) s
| c_record u q : query u = Some q -> converts (ARecord u) q
| c_seq b l x n v s : In x l -> holds x [n; v] -> arg_str E pr n = Some s \/ arg_str E pr v = Some s -> converts (ASeq b l) s
| c_dict d n v s : In (n, v) d -> arg_str E pr n = Some s \/ arg_str E pr v = Some s -> converts (ADict d) s.
(** Python strings in them, and scalar values in the list of another URLSearchParams (C62) *)
Definition good_init (x : arg) : Prop :=
  (forall s, converts x s -> is_pystr s) /\
  (forall l, x = AParams l -> scalars l).
End S.

(** the argument that a literal of Python stands for, as far as [pyobj] has literals; [dec_str] writes a
    number in decimal *)
Inductive lit_arg : pyobj -> arg -> Prop :=
| la_none : lit_arg PNone ANone
| la_int n : lit_arg (PInt n) (ANum $"int" (Some (dec_str n)))
| la_str s : lit_arg (PStr s) (AStr s)
| la_seq tuple l m : Forall2 lit_arg l m -> lit_arg (PSeq tuple l) (ASeq tuple m).
