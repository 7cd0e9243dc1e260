(** repr() and == of Origin, which typing.NamedTuple generates (parse.py:1552-1565), and repr() of
    ValidityState, which dataclasses.dataclass generates (parse.py:2978-3020). *)
From Coq Require Import Ascii String.
From Coq Require Import NArith ZArith Bool Arith List.
From Verif Require Import PyStr PyInt Codec Env HostModel UrlRecord Parser MsgValidators Repr.
Import ListNotations.
Open Scope N_scope.

(** collections.namedtuple: the class's name and "(scheme=%r, host=%r, port=%r, domain=%r)" *)
Definition origin_repr (E : env) (pr : N -> bool) (o : origin) : res str :=
  repr_call E pr $"Origin"
    [($"scheme", PStr (og_scheme o)); ($"host", host_obj (og_host o)); ($"port", port_obj (og_port o)); ($"domain", text_obj (og_domain o))].

(** tuple.__eq__ of two Origins: the items in turn *)
Definition origin_eqb (a b : origin) : bool :=
  str_eqb (og_scheme a) (og_scheme b) && ohost_eqb (og_host a) (og_host b) && on_eqb (og_port a) (og_port b) && ostr_eqb (og_domain a) (og_domain b).

(** dataclasses._repr_fn: "ValidityState(valid={self.valid!r}, error_types=..., ...)" with the
    attributes in the order of their declarations; [quiet] is disable_logging *)
Definition bool_repr (b : bool) : str := if b then $"True" else $"False".
Definition validity_repr (E : env) (pr : N -> bool) (s : mstate) (quiet : bool) : res str :=
  match py_repr E pr (PSeq false (map PStr (ms_types s))) with
  | Err e => Err e
  | Ok t1 =>
      match py_repr E pr (PSeq false (map PStr (ms_descs s))) with
      | Err e => Err e
      | Ok t2 =>
          match py_repr E pr (PInt (N.of_nat (ms_count s))) with
          | Err e => Err e
          | Ok t3 => Ok ($"ValidityState(valid=" ++ bool_repr (ms_valid s) ++ $", error_types=" ++ t1 ++ $", descriptions=" ++ t2
                         ++ $", validation_errors=" ++ t3 ++ $", disable_logging=" ++ bool_repr quiet ++ $")")
          end
      end
  end.
