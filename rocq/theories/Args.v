(** URLSearchParams with arguments of any Python type: the constructor (parse.py:1937-1983),
    [__add__] (1985-2000), [__contains__] (2002-2021), [__eq__] (2023-2034) and [__getitem__] with an
    index (2036-2048). Slices are not modelled. *)
From Coq Require Import Ascii String.
From Coq Require Import NArith ZArith Bool Arith List.
From Verif Require Import PyStr PyInt Codec Env HostModel UrlRecord Parser SearchParams UrlApi Repr.
Import ListNotations.
Open Scope N_scope.

(** Python objects, as far as this class can tell them apart; instances of subclasses of str, list,
    tuple and dict count as instances of these classes.
    ANum: int, float or bool, with the name of its class and its str(), which is also its repr();
    None when str() raises ValueError because of the int/str digit limit.
    AOther: any other object, with the name of its class, its str() and its repr(); [items] is what it
    yields when iterated if it has a length (set, bytes, deque, ...), and then as many as its length. *)
Inductive arg :=
| ANone
| AStr (s : str)
| ANum (type : str) (text : option str)
| ASeq (tuple : bool) (l : list arg)
| ADict (items : list (arg * arg))
| ARecord (u : urlrec)
| AParams (l : pairs)
| AOther (type text repr : str) (items : option (list arg)).

(** [type(x).__name__] *)
Definition arg_type (x : arg) : str :=
  match x with
  | ANone => $"NoneType"
  | AStr _ => $"str"
  | ANum t _ => t
  | ASeq tuple _ => if tuple then $"tuple" else $"list"
  | ADict _ => $"dict"
  | ARecord _ => $"URLRecord"
  | AParams _ => $"URLSearchParams"
  | AOther t _ _ _ => t
  end.

(** repr(x) and str(x); None: ValueError because of the digit limit *)
Fixpoint all_some {A} (l : list (option A)) : option (list A) :=
  match l with
  | [] => Some []
  | Some a :: t => match all_some t with Some r => Some (a :: r) | None => None end
  | None :: _ => None
  end.
Definition res_some {A} (r : res A) : option A := match r with Ok a => Some a | Err _ => None end.
Fixpoint arg_repr (E : env) (pr : N -> bool) (x : arg) : option str :=
  match x with
  | ANone => Some $"None"
  | AStr s => Some (repr_str pr s)
  | ANum _ t => t
  | ASeq tuple l =>
      match all_some (map (arg_repr E pr) l) with
      | None => None
      | Some ts => Some (if tuple then $"(" ++ join $", " ts ++ (match ts with [_] => $"," | _ => [] end) ++ $")"
                         else $"[" ++ join $", " ts ++ $"]")
      end
  | ADict items =>
      match all_some (map (fun kv => match arg_repr E pr (fst kv) with
                                     | None => None
                                     | Some a => match arg_repr E pr (snd kv) with None => None | Some b => Some (a ++ $": " ++ b) end
                                     end) items) with
      | None => None
      | Some ts => Some ($"{" ++ join $", " ts ++ $"}")
      end
  | ARecord u => res_some (record_repr E pr u)
  | AParams l => res_some (params_repr E pr l)
  | AOther _ _ r _ => Some r
  end.
Definition arg_str (E : env) (pr : N -> bool) (x : arg) : option str :=
  match x with
  | AStr s => Some s
  | AParams l => Some (sp_str l)
  | ARecord u => Some (href u)
  | AOther _ t _ _ => Some t
  | _ => arg_repr E pr x
  end.

(** len(x); None: TypeError *)
Definition arg_len (x : arg) : option nat :=
  match x with
  | AStr s => Some (length s)
  | ASeq _ l => Some (length l)
  | ADict d => Some (length d)
  | AParams l => Some (length l)
  | AOther _ _ _ (Some l) => Some (length l)
  | _ => None
  end.
(** what [for y in x] yields *)
Definition arg_iter (x : arg) : list arg :=
  match x with
  | AStr s => map (fun c => AStr [c]) s
  | ASeq _ l => l
  | ADict d => map fst d
  | AParams l => map (fun nv => ASeq true [AStr (fst nv); AStr (snd nv)]) l
  | AOther _ _ _ (Some l) => l
  | _ => []
  end.

(** outcomes: a new object with its list, and with the record it is attached to; exceptions with their
    texts; ValueError of the digit limit *)
Inductive made :=
| Made (l : pairs) (url : option urlrec)
| ValueErr (text : str)
| LimitErr
| TypeErr (text : str).

(** [any(len(x) != 2 for x in init)]; the left case: TypeError with this text *)
Fixpoint any_len (l : list arg) : str + bool :=
  match l with
  | [] => inr false
  | x :: t => match arg_len x with
              | None => inl ($"object of type '" ++ arg_type x ++ $"' has no len()")
              | Some n => if negb (n =? 2)%nat then inr true else any_len t
              end
  end.
(** [utf8_decode(utf8_encode(s))] *)
Definition to_usv (s : str) : str := utf8_decode (utf8_encode s).
(** parse.py:1955-1961 *)
Fixpoint fill_pairs (E : env) (pr : N -> bool) (l : list arg) (out : pairs) : made :=
  match l with
  | [] => Made out None
  | x :: t =>
      match arg_iter x with
      | [name; value] =>
          match arg_str E pr name with
          | None => LimitErr
          | Some n => match arg_str E pr value with
                      | None => LimitErr
                      | Some v => fill_pairs E pr t (out ++ [(to_usv n, to_usv v)])
                      end
          end
      | _ => ValueErr []     (* not reached: the lengths have been checked *)
      end
  end.
(** parse.py:1963-1971; in an assignment to a subscript the right-hand side is evaluated first *)
Fixpoint fill_dict (E : env) (pr : N -> bool) (l : list (arg * arg)) (temp : pairs) : made :=
  match l with
  | [] => Made temp None
  | (name, value) :: t =>
      match arg_str E pr value with
      | None => LimitErr
      | Some v => match arg_str E pr name with
                  | None => LimitErr
                  | Some n => fill_dict E pr t (dict_set (to_usv n) (to_usv v) temp)
                  end
      end
  end.
(** parse.py:1937-1983 [__init__] *)
Definition sp_new (E : env) (pr : N -> bool) (init : arg) : made :=
  match init with
  | ANone => Made [] None
  | ASeq _ l =>
      match any_len l with
      | inl t => TypeErr t
      | inr true => match arg_str E pr init with
                    | None => LimitErr
                    | Some t => ValueErr ($"Expected a sequence of name-value pairs, but got " ++ t)
                    end
      | inr false => fill_pairs E pr l []
      end
  | ADict d => fill_dict E pr d []
  | ARecord u => Made (attach_list u) (Some u)
  | AParams l => Made (sp_init_str (sp_str l)) None
  | AStr s => Made (sp_init_str s) None
  | _ => TypeErr ($"Expected string, not " ++ arg_type init)
  end.

(** [params + other]; None: NotImplemented *)
Definition sp_add (l : pairs) (other : arg) : option str :=
  match other with AStr s => Some (sp_str l ++ s) | _ => None end.
(** [item in params]; the left case: TypeError with this text *)
Definition sp_in (l : pairs) (item : arg) : str + bool :=
  match item with
  | AStr s => inr (sp_contains l s)
  | _ => inl ($"requires string as left operand, not " ++ arg_type item)
  end.
(** [params == other] *)
Definition sp_eq (l : pairs) (other : arg) : bool :=
  match other with AParams l' => pairs_eqb l l' | _ => false end.
(** [params[key]] with an int; None: IndexError (listobject.c, list_subscript) *)
Definition sp_item (l : pairs) (key : Z) : option (str * str) :=
  let i := if (key <? 0)%Z then (key + Z.of_nat (length l))%Z else key in
  if (i <? 0)%Z || (Z.of_nat (length l) <=? i)%Z then None else nth_error l (Z.to_nat i).
