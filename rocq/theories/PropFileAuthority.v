(** C101 for file URLs: "file://", a host and the rest. *)
From Coq Require Import Ascii String.
From Coq Require Import NArith ZArith Bool Arith Lia List.
From Verif Require Import PyStr PyInt Codec Env HostModel UrlRecord Parser SpecText SpecHost.
From Verif Require Import LegacyProofs IPv4Proofs HostProofs WfProofs RoundTrip UrlProps ExampleEnv SuffixProofs RefLaws FileAuthority PropParser PropReference PropFileReference.
From Verif Require Import SpecUrl SpecParser SpecReference SpecAuthority SpecFileReference.
Import ListNotations.
Open Scope N_scope.

(** the host and what follows it are read independently of each other *)
Theorem C101_file_host_and_rest :
  forall E s a x t b1 b2 b3 enc enc' v, enc_ok E (normalize_encoding E enc) -> enc_ok E (normalize_encoding E enc') ->
    base_parsed E b1 -> base_parsed E b2 -> base_parsed E b3 -> usable E b1 enc -> usable E b2 enc -> usable E b3 enc' ->
    std_scheme s = true -> std_lower s = $"file" -> file_host_text a -> file_host_text x -> rest_text $"file" t ->
    std_any_drive_letter (std_strip_tabs a) = false -> std_any_drive_letter (std_strip_tabs x) = false ->
    snd (parse_url E (s ++ $"://" ++ x ++ t) b1 enc) = Ok v ->
    snd (parse_url E (s ++ $"://" ++ a ++ t) b2 enc) = on_ok (with_rest v) (snd (parse_url E (s ++ $"://" ++ a) b3 enc')).
Proof. exact file_parts. Qed.
Print Assumptions C101_file_host_and_rest.
(** the host is read as in http URLs, and "localhost" is dropped *)
Theorem C101_file_host :
  forall E s s' a b1 b2 enc enc', enc_ok E (normalize_encoding E enc) -> enc_ok E (normalize_encoding E enc') ->
    base_parsed E b1 -> base_parsed E b2 -> usable E b1 enc -> usable E b2 enc' ->
    std_scheme s = true -> std_lower s = $"file" -> std_scheme s' = true -> std_lower s' = $"http" ->
    file_host_text a -> std_strip_tabs a <> [] -> host_text (std_strip_tabs a) -> ~ In 64 a -> std_any_drive_letter (std_strip_tabs a) = false ->
    snd (parse_url E (s ++ $"://" ++ a) b1 enc) = on_ok file_like (snd (parse_url E (s' ++ $"://" ++ a) b2 enc')).
Proof. exact file_host_http. Qed.
Print Assumptions C101_file_host.
(** a drive letter is not a host *)
Theorem C101_file_drive :
  forall E s a t b1 b2 enc, enc_ok E (normalize_encoding E enc) -> base_parsed E b1 -> base_parsed E b2 -> usable E b1 enc -> usable E b2 enc ->
    std_scheme s = true -> std_lower s = $"file" -> file_host_text a -> rest_text $"file" t -> std_any_drive_letter (std_strip_tabs a) = true ->
    snd (parse_url E (s ++ $"://" ++ a ++ t) b1 enc) = snd (parse_url E (s ++ $":///" ++ a ++ t) b2 enc).
Proof. exact file_drive_host. Qed.
Print Assumptions C101_file_drive.
Example C101_file_case :
  hrefs (p0 $"file://k/../x?q#f") = Ok $"file://k/x?q#f" /\ hrefs (p0 $"file:///../x?q#f") = Ok $"file:///x?q#f" /\ hrefs (p0 $"FILE://LocalHost/../x?q#f") = Ok $"file:///x?q#f" /\
  hrefs (p0 $"file://[1:0::]\x") = Ok $"file://[1::]/x" /\ hrefs (p0 $"http://[1:0::]") = Ok $"http://[1::]/" /\
  p0 $"file://a b/x" = Err EHostParse /\ p0 $"file://a b" = Err EHostParse /\ p0 $"http://a b" = Err EHostParse /\
  hrefs (p0 $"file://C|/x") = Ok $"file:///C:/x" /\ hrefs (p0 $"file:///C|/x") = Ok $"file:///C:/x" /\ p0 $"file://u@k/x" = Err EHostParse /\
  file_host_text $"[1:0::]" /\ host_text $"[1:0::]".
Proof.
  do 11 (split; [vm_compute; reflexivity|]). split.
  - split; [|reflexivity]. apply Forall_forall. intros c Hc K. apply FileAuthority.file_ends in K. repeat (destruct Hc as [<-|Hc]; [discriminate K|]). destruct Hc.
  - right. exists $"1:0::". split; [reflexivity|]. intros c Hc. repeat (destruct Hc as [<-|Hc]; [split; discriminate|]). destruct Hc.
Qed.
