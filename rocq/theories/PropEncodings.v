(** C95, C98 and C99 for any encoding argument and any codec (C132). *)
From Coq Require Import Ascii String.
From Coq Require Import NArith ZArith Bool Arith Lia List.
From Verif Require Import PyStr PyInt Codec Env HostModel UrlRecord Parser Validators AnyCodec IPv4Proofs HostProofs SpecPyInt IntGrammar SpecIPv6 IPv6Grammar HostStandard.
From Verif Require Import StandardProofs ReportStandard WritingProofs WritingStandard EncodingProofs EncodingBase ExampleEnv PropCodec SpecText SpecHost SpecUrl SpecParser SpecReports SpecHostReports SpecWriting SpecCodec.
Import ListNotations.
Open Scope N_scope.

(** C95: the standard's reports do not depend on the encoding. The code logs the same ones;
    if an exception of the codec escapes, it has logged the first of them. *)
Theorem C95_any_codec :
  forall X (cd : list N -> anycodec X) E s base enc,
  (forall b, std_port_read (code_host E) base s b -> short_for (int_limit E) b) -> std_good_base base -> file_pipe_host base s = false ->
  exists t, (forall l, std_parse_reports (code_host_log E) base s l <-> l = fst (any_new cd E s base enc) ++ t) /\
  ((forall x, snd (any_new cd E s base enc) <> Ok (inl x)) -> t = []).
Proof. exact @any_reports. Qed.
Print Assumptions C95_any_codec.
Example C95_any_case :
  any_new (fun _ => shift_codec) ascii_env ($"http://h/?a" ++ [233] ++ $"^#^") None $"x" =
    ([VInvalidURLUnit; VInvalidURLUnit], Ok (inr (mkurl $"http" [] [] (Some (HStr $"h")) None (PList [[]]) (Some $"%0Ea%E9^%0F") (Some $"^")))) /\
  any_new (fun _ => no_codec) ascii_env $"http://h/?a^#^" None $"x" = ([VInvalidURLUnit], Ok (inl tt)) /\
  fst (parse_new ascii_env $"http://h/?a^#^" None UTF8) = [VInvalidURLUnit; VInvalidURLUnit].
Proof. repeat split; vm_compute; reflexivity. Qed.

(** C98: a valid URL string is parsed silently with every encoding. *)
Theorem C98_any_codec :
  forall X (cd : list N -> anycodec X) E s base enc, limit_ok E -> std_good_base base -> idna_ok E -> scalar_string s ->
  url_string true (fun h => domain_string (code_to_ascii E) h /\ regular_host E h false) (fun a => address_string a /\ ~ odd_v6 a) base s ->
  fst (any_new cd E s base enc) = [].
Proof. exact @any_silent. Qed.
Print Assumptions C98_any_codec.

(** C99 with every encoding; the codec may raise where the string is valid. *)
Theorem C99_any_codec :
  forall X (cd : list N -> anycodec X) E s base enc, bytes_codec (cd (normalize_encoding E enc)) ->
  limit_ok E -> std_good_base base -> keeps_forbidden (code_to_ascii E) -> scalar_string s ->
  let good := url_string false (fun h => domain_chars true h /\ fst (host_parse E h false) = []) (fun a => exists x, code_v6_text a x) base s in
  ((exists u, any_new cd E s base enc = ([], Ok (inr u))) -> good) /\
  (good -> snd (any_new cd E s base enc) <> Err EValue -> exists r, any_new cd E s base enc = ([], Ok r)).
Proof. exact @any_valid. Qed.
Print Assumptions C99_any_codec.
Example C99_any_case :
  (exists u, any_new (fun _ => shift_codec) ascii_env ($"http://h/?a" ++ [233]) None $"x" = ([], Ok (inr u))) /\
  any_new (fun _ => no_codec) ascii_env $"http://h/?a" None $"x" = ([], Ok (inl tt)).
Proof. split; [eexists|]; vm_compute; reflexivity. Qed.

(** C97: is_valid does not depend on the encoding, unless UnicodeEncodeError escapes; so
    C97_valid_partial holds for all other encodings as well. *)
Theorem C97_encoding :
  forall E s base enc v,
  if match snd (parse_url (with_validity E true) s base enc) with Err EUnicode => true | _ => false end
  then fst (url_is_valid E s base enc v) = Err EUnicode
  else url_is_valid E s base enc v = url_is_valid E s base UTF8 v.
Proof. exact valid_any_encoding. Qed.
Print Assumptions C97_encoding.
Example C97_encoding_case :
  fst (url_is_valid ascii_env ($"http://h/?" ++ [233]) BNone $"latin-1" None) = Ok true /\
  fst (url_is_valid ascii_env $"http://h/?^" BNone $"latin-1" None) = Ok false /\
  fst (url_is_valid ascii_env $"#f" (BStr ($"http://h/?" ++ [233])) $"latin-1" None) = Ok true.
Proof. split; [|split]; vm_compute; reflexivity. Qed.
