(** Property theorems C140: the texts and the equality of Origin objects, and the texts of
    ValidityState objects. *)
From Coq Require Import Ascii String.
From Coq Require Import NArith ZArith Bool Arith Lia List.
From Verif Require Import PyStr PyInt Codec Env HostModel UrlRecord Parser MsgValidators Repr ReprTuple.
From Verif Require Import IPv4Proofs ObjProofs ReprProofs ReprTupleProofs ExampleEnv.
From Verif Require Import SpecPyInt SpecText SpecUrl SpecApi SpecRepr SpecReprTuple.
Import ListNotations.
Open Scope N_scope.

(** C140. An origin's text is a call of Origin with literals as its arguments, whose values are
    the attributes; so origins with the same text are equal. *)
Theorem C140_origin_repr :
  (forall E pr o t, pystr_origin o -> origin_repr E pr o = Ok t -> exists args, reads_call t $"Origin" args /\ origin_value args o) /\
  (forall args o o', origin_value args o -> origin_value args o' -> o = o') /\
  (forall E pr E' pr' o o' t, pystr_origin o -> pystr_origin o' -> origin_repr E pr o = Ok t -> origin_repr E' pr' o' = Ok t -> o = o').
Proof. exact (conj origin_read (conj origin_value_fun origin_repr_inj)). Qed.
Print Assumptions C140_origin_repr.
(** repr() gives a text if every number of the host and the port can be written, and otherwise
    raises ValueError *)
Theorem C140_origin_repr_total :
  forall E pr o, limit_ok E ->
    ((exists t, origin_repr E pr o = Ok t) <-> Forall (printable (int_limit E)) (origin_ints o)) /\
    ((exists t, origin_repr E pr o = Ok t) \/ origin_repr E pr o = Err EValue).
Proof. exact origin_repr_ok. Qed.
Print Assumptions C140_origin_repr_total.
(** == is equality of all four attributes; for the origins of records (which have no domain) it is
    the same as being of same origin, and as being of same origin-domain *)
Theorem C140_origin_equal :
  (forall a b, origin_eqb a b = true <-> a = b) /\
  (forall E E' u u' a b, record_origin E u = Ok (Some a) -> record_origin E' u' = Ok (Some b) ->
     (origin_eqb a b = true <-> std_same_origin a b) /\ (is_same_origin_domain a b = true <-> std_same_origin a b)).
Proof. exact (conj origin_eqb_eq origins_equal). Qed.
Print Assumptions C140_origin_equal.
(** the text of a ValidityState determines all its attributes *)
Theorem C140_validity_repr :
  (forall E pr s quiet t, pystr_state s -> validity_repr E pr s quiet = Ok t ->
     validity_text t (ms_valid s) (PSeq false (map PStr (ms_types s))) (PSeq false (map PStr (ms_descs s))) (PInt (N.of_nat (ms_count s))) quiet) /\
  (forall t a b c d e a' b' c' d' e', validity_text t a b c d e -> validity_text t a' b' c' d' e' -> (a, b, c, d, e) = (a', b', c', d', e')) /\
  (forall E pr E' pr' s s' q q' t, pystr_state s -> pystr_state s' -> validity_repr E pr s q = Ok t -> validity_repr E' pr' s' q' = Ok t -> s = s' /\ q = q').
Proof. exact (conj validity_read (conj validity_text_fun validity_repr_inj)). Qed.
Print Assumptions C140_validity_repr.
Theorem C140_validity_repr_total :
  forall E pr s q, limit_ok E ->
    ((exists t, validity_repr E pr s q = Ok t) <-> printable (int_limit E) (N.of_nat (ms_count s))) /\
    ((exists t, validity_repr E pr s q = Ok t) \/ validity_repr E pr s q = Err EValue).
Proof. exact validity_repr_ok. Qed.
Print Assumptions C140_validity_repr_total.
Example C140_case :
  origin_repr ascii_env (fun _ => true) (mkorigin $"http" (Some (HIPv4 2130706433)) (Some 8080) None) =
    Ok $"Origin(scheme='http', host=2130706433, port=8080, domain=None)" /\
  origin_repr ascii_env (fun _ => true) (mkorigin $"wss" (Some (HIPv6 [1; 0; 0; 0; 0; 0; 0; 2])) None (Some $"a")) =
    Ok $"Origin(scheme='wss', host=(1, 0, 0, 0, 0, 0, 0, 2), port=None, domain='a')" /\
  origin_repr low_env (fun _ => true) (mkorigin $"http" (Some (HIPv4 (10 ^ 700))) None None) = Err EValue /\
  validity_repr ascii_env (fun _ => true) (mkms false [$"invalid-URL-unit"] [$"it's"] 1) true =
    Ok ($"ValidityState(valid=False, error_types=['invalid-URL-unit'], descriptions=[" ++ [34] ++ $"it's" ++ [34] ++ $"], validation_errors=1, disable_logging=True)") /\
  validity_repr ascii_env (fun _ => true) ms_fresh false =
    Ok $"ValidityState(valid=True, error_types=[], descriptions=[], validation_errors=0, disable_logging=False)" /\
  (exists u a, snd (parse_url ascii_env $"http://h:81/p" BNone UTF8) = Ok u /\ record_origin ascii_env u = Ok (Some a) /\
     origin_eqb a (mkorigin $"http" (Some (HStr $"h")) (Some 81) None) = true /\ origin_eqb a (mkorigin $"http" (Some (HStr $"h")) (Some 81) (Some [])) = false).
Proof.
  do 5 (apply conj; [vm_compute; reflexivity|]). do 2 eexists. do 3 (apply conj; [vm_compute; reflexivity|]). vm_compute; reflexivity.
Qed.
