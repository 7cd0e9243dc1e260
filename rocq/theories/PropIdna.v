(** Property theorems C106, C107: IDNA's error texts and its cache of instances. *)
From Coq Require Import Ascii String.
From Coq Require Import NArith ZArith Bool Arith Lia List.
From Verif Require Import PyStr PyInt Codec Env HostModel Idna SpecText.
From Verif Require Import IdnaProofs ExampleEnv.
From Verif Require Import SpecParams SpecIdna.
Import ListNotations.
Open Scope N_scope.

(** C106 *)
Theorem C106_error_names :
  (forall e, errors_to_string e = join $"|" (error_texts e)) /\ (forall e, flags_of (errors_to_string e) = Some e).
Proof. exact (conj errors_closed errors_text). Qed.
Print Assumptions C106_error_names.
Example C106_case :
  errors_to_string 0 = [] /\ errors_to_string 132 = $"UIDNA_ERROR_DOMAIN_NAME_TOO_LONG|UIDNA_ERROR_DISALLOWED" /\
  errors_to_string (16384 + 65536) = $"UIDNA_ERROR_CONTEXTO_DIGITS|0x10000" /\ flags_of $"UIDNA_ERROR_BIDI|0x18000|UIDNA_ERROR_PUNYCODE" = Some 100608 /\
  flags_of $"UIDNA_ERROR" = None.
Proof. repeat split; vm_compute; reflexivity. Qed.

(** C107. [E] is an environment whose ICU makes a new instance for every call and gets the whole text. *)
Theorem C107_cache :
  forall X E cs, Forall (fun c => is_pystr (call_text c)) cs -> icu_to_ascii E = direct X name_to_ascii -> icu_to_unicode E = direct X name_to_unicode ->
    fst (idna_calls X [] cs) = map (call_result E) cs /\
    NoDup (map fst (snd (idna_calls X [] cs))) /\ incl (map fst (snd (idna_calls X [] cs))) [28; 30; 44; 46] /\ (length (snd (idna_calls X [] cs)) <= 4)%nat.
Proof. exact cache_size. Qed.
Print Assumptions C107_cache.
(** an ICU whose instances show their options, and that has no instance for strict calls of name_to_unicode *)
Definition show_icu : icu :=
  {| instance := N; create_uts46_instance := fun o => if o =? 46 then None else Some o;
     name_to_ascii := fun i s => IcuOk 0 (i :: s); name_to_unicode := fun i s => IcuOk 0 (i :: s) |}.
Example C107_case :
  idna_calls show_icu [] [ToAscii false $"a"; ToAscii true [128512]; ToUnicode true $"b"; ToUnicode false $"b"; ToAscii false $"c"] =
  ([([], Ok [28; 97]); ([], Ok [30; 55357; 56832]); ([VDomainToUnicode], Err EIDNA); ([], Ok [44; 98]); ([], Ok [28; 99])], [(28, 28); (30, 30); (44, 44)]).
Proof. vm_compute. reflexivity. Qed.
