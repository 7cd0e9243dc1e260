(** Property theorems C100-C103: relative references resolved as in RFC 3986, and what the
    parts of an authority mean, stated by comparing results of the parser. *)
From Coq Require Import Ascii String.
From Coq Require Import NArith ZArith Bool Arith Lia List.
From Verif Require Import PyStr PyInt Codec Env HostModel UrlRecord Parser SpecText SpecHost.
From Verif Require Import LegacyProofs IPv4Proofs HostProofs WfProofs RoundTrip UrlProps ExampleEnv RfcProofs AuthorityProofs PropParser PropReference.
From Verif Require Import SpecParams SpecText SpecUrl SpecReference SpecParser SpecRfc SpecAuthority.
Import ListNotations.
Open Scope N_scope.

(** C100 *)
Theorem C100_rfc_reference :
  forall E b l rp q f enc, enc_ok E (normalize_encoding E enc) -> parsed E b -> path b = PList l -> scheme b <> $"file" ->
    is_pystr (reference_text rp q f) -> std_trim (reference_text rp q f) = reference_text rp q f ->
    ~ In 63 rp -> ~ In 35 rp -> (forall x, q = Some x -> ~ In 35 x) -> (std_special (scheme b) -> ~ In 92 rp) -> ~ has_scheme rp -> (forall x, rp <> $"//" ++ x) ->
    (q = None \/ normalize_encoding E enc = $"utf-8" \/ ~ std_special (scheme b) \/ scheme b = $"ws" \/ scheme b = $"wss") ->
    let (tp, tq) := rfc_transform (match uhost b with Some _ => true | None => false end) (path_text l) (query b)
                      (plain_dots (std_percent_encode path_set false rp)) (option_map (std_percent_encode (std_query_set (scheme b)) false) q) in
    exists l', path_text l' = tp /\
      snd (parse_url E (reference_text rp q f) (BRec b) enc) =
      Ok (set_fragment (option_map (std_percent_encode fragment_set false) f) (set_query tq (set_path (PList l') b))).
Proof. exact rfc_reference. Qed.
Print Assumptions C100_rfc_reference.
(** the examples of RFC 3986, sections 5.4.1 and 5.4.2, that are relative references with a path:
    the reference, the path that the RFC gives, and the result of the library *)
Definition rfc_base : urlrec := mkurl $"http" [] [] (Some (HStr $"a")) None (PList [$"b"; $"c"; $"d;p"]) (Some $"q") None.
Example C100_case :
  parse_url ascii_env $"http://a/b/c/d;p?q" BNone UTF8 = ([], Ok rfc_base) /\
  (forall rp x, In (rp, x) [($"g", $"/b/c/g"); ($"./g", $"/b/c/g"); ($"g/", $"/b/c/g/"); ($"/g", $"/g"); (@nil N, $"/b/c/d;p"); ($";x", $"/b/c/;x"); ($"g;x", $"/b/c/g;x");
      ($".", $"/b/c/"); ($"./", $"/b/c/"); ($"..", $"/b/"); ($"../", $"/b/"); ($"../g", $"/b/g"); ($"../..", $"/"); ($"../../", $"/"); ($"../../g", $"/g");
      ($"../../../g", $"/g"); ($"../../../../g", $"/g"); ($"/./g", $"/g"); ($"/../g", $"/g"); ($"g.", $"/b/c/g."); ($".g", $"/b/c/.g"); ($"g..", $"/b/c/g.."); ($"..g", $"/b/c/..g");
      ($"./../g", $"/b/g"); ($"./g/.", $"/b/c/g/"); ($"g/./h", $"/b/c/g/h"); ($"g/../h", $"/b/c/h"); ($"g;x=1/./y", $"/b/c/g;x=1/y"); ($"g;x=1/../y", $"/b/c/y")] ->
    fst (rfc_transform true $"/b/c/d;p" (Some $"q") rp None) = x /\
    hrefs (p1 (rp ++ $"?y#s") rfc_base) = Ok ($"http://a" ++ x ++ $"?y#s")) /\
  hrefs (p1 $"%2e%2E/g%41 x" rfc_base) = Ok $"http://a/b/g%41%20x" /\ plain_dots $"%2e%2E/g%41%20x" = $"../g%41%20x".
Proof.
  split; [vm_compute; reflexivity|]. split; [|vm_compute; split; reflexivity]. intros rp x H. cbn [In] in H.
  repeat (destruct H as [H|H]; [injection H as <- <-; vm_compute; split; reflexivity|]). destruct H.
Qed.

(** C101 *)
Theorem C101_authority_and_rest :
  forall E s a x t b1 b2 b3 enc enc' v, enc_ok E (normalize_encoding E enc) -> enc_ok E (normalize_encoding E enc') ->
    base_parsed E b1 -> base_parsed E b2 -> base_parsed E b3 -> usable E b1 enc -> usable E b2 enc -> usable E b3 enc' ->
    std_scheme s = true -> std_lower s <> $"file" -> authority_text (std_lower s) a -> authority_text (std_lower s) x -> rest_text (std_lower s) t ->
    snd (parse_url E (s ++ $"://" ++ x ++ t) b1 enc) = Ok v ->
    snd (parse_url E (s ++ $"://" ++ a ++ t) b2 enc) = on_ok (with_rest v) (snd (parse_url E (s ++ $"://" ++ a) b3 enc')).
Proof. exact parts. Qed.
Print Assumptions C101_authority_and_rest.
Example C101_case :
  hrefs (p0 $"http://h/../x@y:z?q#f") = Ok $"http://h/x@y:z?q#f" /\ hrefs (p0 $"http://u:p@k:81") = Ok $"http://u:p@k:81/" /\
  hrefs (p0 $"http://u:p@k:81/../x@y:z?q#f") = Ok $"http://u:p@k:81/x@y:z?q#f" /\
  p0 $"http://k:x/../x@y:z?q#f" = Err EURLParse /\ p0 $"http://k:x" = Err EURLParse /\ rest_text $"http" $"\x" /\ ~ rest_text $"ab" $"\x".
Proof.
  do 5 (split; [vm_compute; reflexivity|]). split.
  - left. right. split; [vm_compute; tauto|reflexivity].
  - intros [[H|[H _]]|[H|H]]; try discriminate H. vm_compute in H. intuition discriminate.
Qed.

(** C102 *)
Theorem C102_user_and_password :
  forall E s ui hp t b1 b2 enc, enc_ok E (normalize_encoding E enc) -> base_parsed E b1 -> base_parsed E b2 -> usable E b1 enc -> usable E b2 enc ->
    std_scheme s = true -> std_lower s <> $"file" -> is_pystr ui -> Forall (fun c => ~ ends_authority (std_lower s) c) ui ->
    authority_text (std_lower s) hp -> std_strip_tabs hp <> [] -> ~ In 64 hp -> rest_text (std_lower s) t ->
    snd (parse_url E (s ++ $"://" ++ ui ++ $"@" ++ hp ++ t) b1 enc) =
    on_ok (fun u => let (user, pass) := std_upto 58 (std_strip_tabs ui) in
             set_password (std_percent_encode userinfo_set false pass) (set_username (std_percent_encode userinfo_set false user) u))
      (snd (parse_url E (s ++ $"://" ++ hp ++ t) b2 enc)).
Proof. exact userinfo_inert. Qed.
Print Assumptions C102_user_and_password.
Theorem C102_port :
  forall E s h ps t b1 b2 enc, enc_ok E (normalize_encoding E enc) -> base_parsed E b1 -> base_parsed E b2 -> usable E b1 enc -> usable E b2 enc ->
    std_scheme s = true -> std_lower s <> $"file" -> authority_text (std_lower s) h -> ~ In 64 h -> std_strip_tabs h <> [] -> host_text (std_strip_tabs h) ->
    Forall (fun c => ~ ends_authority (std_lower s) c) ps -> std_rstrip ps = ps -> ~ In 64 ps -> rest_text (std_lower s) t ->
    (forall u, snd (parse_url E (s ++ $"://" ++ h ++ t) b1 enc) = Ok u ->
     snd (parse_url E (s ++ $"://" ++ h ++ $":" ++ ps ++ t) b2 enc) =
     match port_meaning (int_limit E) (std_lower s) (std_strip_tabs ps) with Ok p => Ok (set_port p u) | Err e => Err e end) /\
    (forall e, snd (parse_url E (s ++ $"://" ++ h ++ t) b1 enc) = Err e -> exists e', snd (parse_url E (s ++ $"://" ++ h ++ $":" ++ ps ++ t) b2 enc) = Err e').
Proof. exact port_inert. Qed.
Print Assumptions C102_port.
Example C102_case :
  hrefs (p0 $"ws://a@b:c:d@h/x") = Ok $"ws://a%40b:c%3Ad@h/x" /\ hrefs (p0 $"ws://h/x") = Ok $"ws://h/x" /\
  hrefs (p0 $"ws://[::1]:0080/x") = Ok $"ws://[::1]/x" /\ hrefs (p0 $"ws://[::1]:0443/x") = Ok $"ws://[::1]:443/x" /\
  port_meaning (Some 4300) $"ws" $"0080" = Ok None /\ port_meaning (Some 4300) $"ws" $"0443" = Ok (Some 443) /\ port_meaning None $"ws" $"65536" = Err EURLParse /\
  port_meaning (Some 2) $"ws" $"0443" = Err EValue /\ host_text $"[::1]".
Proof. do 8 (split; [vm_compute; reflexivity|]). right. exists $"::1". split; [reflexivity|]. intros c [<-|[<-|[<-|[]]]]; split; discriminate. Qed.

(** C103 *)
Theorem C103_escaped_host :
  forall E s h h' t b1 b2 enc, enc_ok E (normalize_encoding E enc) -> base_parsed E b1 -> base_parsed E b2 -> usable E b1 enc -> usable E b2 enc ->
    std_scheme s = true -> std_lower s <> $"file" -> std_special (std_lower s) -> is_pystr h -> is_pystr h' ->
    authority_text (std_lower s) h -> authority_text (std_lower s) h' ->
    (forall c, In c (h ++ h') -> c <> 64 /\ c <> 58 /\ c <> 91 /\ c <> 93) -> std_unescape (std_strip_tabs h) = std_unescape (std_strip_tabs h') -> rest_text (std_lower s) t ->
    snd (parse_url E (s ++ $"://" ++ h ++ t) b1 enc) = snd (parse_url E (s ++ $"://" ++ h' ++ t) b2 enc).
Proof. exact decoded_host. Qed.
Print Assumptions C103_escaped_host.
Example C103_case :
  hrefs (p0 $"http://ex%41mple.%63om/x") = Ok $"http://example.com/x" /\ std_unescape $"ex%41mple.%63om" = $"exAmple.com" /\
  hrefs (p0 $"http://%31%32%37.%31/x") = Ok $"http://127.0.0.1/x" /\ hrefs (p0 $"foo://%31%32/x") = Ok $"foo://%31%32/x" /\ hrefs (p0 $"foo://12/x") = Ok $"foo://12/x".
Proof. repeat split; vm_compute; reflexivity. Qed.
