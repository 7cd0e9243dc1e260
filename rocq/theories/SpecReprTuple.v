(** Specification of the texts of Origin and ValidityState objects: read as Python they give the
    attributes back. *)
From Coq Require Import Ascii String.
From Coq Require Import NArith ZArith Bool Arith List.
From Verif Require Import PyStr Env HostModel UrlRecord Parser MsgValidators Repr SpecText SpecHost SpecPyInt SpecRepr.
Import ListNotations.
Open Scope N_scope.

(** what Origin(scheme=..., host=..., port=..., domain=...) makes *)
Definition origin_value (args : list (list N * pyobj)) (o : origin) : Prop :=
  match args with
  | [(k1, PStr a); (k2, b); (k3, c); (k4, d)] =>
      [k1; k2; k3; k4] = [$"scheme"; $"host"; $"port"; $"domain"] /\
      og_scheme o = a /\ host_value b (og_host o) /\ port_value c (og_port o) /\ text_value d (og_domain o)
  | _ => False
  end.
Definition pystr_origin (o : origin) : Prop :=
  is_pystr (og_scheme o) /\ (forall s, og_host o = Some (HStr s) -> is_pystr s) /\ (forall s, og_domain o = Some s -> is_pystr s).
Definition origin_ints (o : origin) : list N :=
  (match og_host o with Some (HIPv4 n) => [n] | Some (HIPv6 l) => l | _ => [] end) ++ (match og_port o with Some n => [n] | None => [] end).

(** a reader of the text of a ValidityState: literals at fixed places of a fixed text *)
Definition read_bool (s : list N) : option (bool * list N) :=
  match expect $"True" s with
  | Some r => Some (true, r)
  | None => match expect $"False" s with Some r => Some (false, r) | None => None end
  end.
Definition validity_text (s : list N) (valid : bool) (types descriptions count : pyobj) (quiet : bool) : Prop :=
  exists n r1 r2 r3 r4 r5 r6 r7 r8 r9 r10,
    expect $"ValidityState(valid=" s = Some r1 /\ read_bool r1 = Some (valid, r2) /\
    expect $", error_types=" r2 = Some r3 /\ read_lit n r3 = Some (types, r4) /\
    expect $", descriptions=" r4 = Some r5 /\ read_lit n r5 = Some (descriptions, r6) /\
    expect $", validation_errors=" r6 = Some r7 /\ read_lit n r7 = Some (count, r8) /\
    expect $", disable_logging=" r8 = Some r9 /\ read_bool r9 = Some (quiet, r10) /\ expect $")" r10 = Some [].
Definition pystr_state (s : mstate) : Prop := Forall is_pystr (ms_types s) /\ Forall is_pystr (ms_descs s).
