(** C108: the digit limit of int() and str() concerns long inputs only. *)
From Coq Require Import Ascii String.
From Coq Require Import NArith ZArith Bool Arith Lia ZifyBool ZifyN ZifyNat List.
From Verif Require Import PyStr PyInt Codec Env HostModel UrlRecord Parser UrlApi ExampleEnv SpecText SpecApi.
From Verif Require Import WfProofs ParserProofs UrlProps ValidityProofs LimitProofs.
From Verif Require Import SpecLimit.
Import ListNotations.
Open Scope N_scope.

(** C108: short inputs are parsed as on an interpreter without limit: same record or same error. *)
Theorem C108_parse_url_short :
  forall E s base enc, enc_ok E (normalize_encoding E enc) -> base_parsed E base -> short_input E s -> base_short E base ->
  snd (parse_url E s base enc) = snd (parse_url (unlimited E) s base enc).
Proof. exact (fun E s base enc He B => url_short E s base enc He (base_parsed_arg E base B)). Qed.
Print Assumptions C108_parse_url_short.
(** No other exception than a URLParseError is left. *)
Theorem C108_only_url_errors_short :
  forall E s base enc e, enc_ok E (normalize_encoding E enc) -> is_pystr s -> base_parsed E base -> short_input E s -> base_short E base ->
  snd (parse_url E s base enc) = Err e -> is_url_error e = true.
Proof. exact (fun E s base enc e He Hs B => url_short_error E s base enc e He Hs (base_parsed_arg E base B)). Qed.
Print Assumptions C108_only_url_errors_short.
(** URL.can_parse and URL() agree on them. *)
Theorem C108_can_parse_short :
  forall E s base, is_pystr s -> base_reached E base -> short_input E s -> base_short E base ->
  (can_parse E s base = Ok true <-> exists o, url_new E s base = Ok o) /\
  (can_parse E s base = Ok false <-> exists e, url_new E s base = Err e).
Proof. exact (fun E s base Hs B => can_short_iff E s base Hs (base_reached_arg E base B)). Qed.
Print Assumptions C108_can_parse_short.

(** ICU of the example environment: every text of up to 430 characters is short *)
Lemma ascii_short s : (length s <= 430)%nat -> short_input ascii_env s.
Proof.
  intros L. unfold short_input. cbn [ascii_env int_limit]. split; [lia|]. intros h Hh d Q. rewrite ascii_env_dta in Q. pose proof (decode_len (string_percent_decode h)) as L1. pose proof (percent_len (utf8_encode h)) as L2. pose proof (encode_len h) as L3. unfold string_percent_decode in *.
  destruct (forallb _ _); [|discriminate Q]. destruct (lower _) as [|c o] eqn:K; [discriminate Q|]. injection Q as <-. rewrite <- K. unfold lower. rewrite map_length. lia.
Qed.
Example C108_case : short_input ascii_env $"http://0x7f.1:0080/[x]" /\ short_input ascii_env $"//[::1.2.3.4]:65536/" /\
  (exists u, snd (parse_url ascii_env $"http://0x7f.1:0081/[x]" BNone UTF8) = Ok u /\ uhost u = Some (HIPv4 2130706433) /\ port u = Some 81) /\
  snd (parse_url ascii_env $"//[::1.2.3.4]:65536/" (BStr $"http://h") UTF8) = Err EURLParse.
Proof. split; [apply ascii_short; cbn; lia|]. split; [apply ascii_short; cbn; lia|]. split; [eexists; repeat split; vm_compute; reflexivity|vm_compute; reflexivity]. Qed.

(** Without a bound it is false: a longer host is a name under the limit, an IPv4 address without. *)
Theorem C108_long_inputs_refuted :
  exists s u v, is_pystr s /\ snd (parse_url low_env s BNone UTF8) = Ok u /\ snd (parse_url (unlimited low_env) s BNone UTF8) = Ok v /\
  uhost u <> uhost v /\ uhost v = Some (HIPv4 1).
Proof.
  exists ($"http://+" ++ repeat 48 640 ++ $"1/"). eexists. eexists. split; [|split; [vm_compute; reflexivity|split; [vm_compute; reflexivity|split; [discriminate|reflexivity]]]].
  apply Forall_forall. intros c H. assert (X : In c [104; 116; 112; 58; 47; 43; 48; 49]).
  { apply in_app_or in H as [H|H]; [|apply in_app_or in H as [H|H]]; [|apply repeat_spec in H; subst; cbn; tauto|]; revert H; clear; cbn; intuition lia. }
  cbn in X. lia.
Qed.
Print Assumptions C108_long_inputs_refuted.
(** Nor is it enough that the input has no more characters than the limit has digits. *)
Theorem C108_same_length_refuted :
  exists s, N.of_nat (length s) <= 640 /\ int_limit low_env = Some 640 /\
  can_parse low_env s BNone = Err EValue /\ can_parse (unlimited low_env) s BNone = Ok false.
Proof. exists ($"http://0x" ++ repeat 102 620). split; [vm_compute; discriminate|split; [reflexivity|split; vm_compute; reflexivity]]. Qed.
Print Assumptions C108_same_length_refuted.
