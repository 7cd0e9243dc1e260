(** Property theorems C98-C99: the URL Standard's grammar of valid URL strings (section
    4.3, in SpecWriting.v) and the strings that the parser accepts without reporting a
    validation error. *)
From Coq Require Import Ascii String.
From Coq Require Import NArith ZArith Bool Arith Lia ZifyBool ZifyN ZifyNat List.
From Verif Require Import PyStr PyInt Codec Env HostModel UrlRecord Parser Lemmas IPv4Proofs HostProofs StandardProofs SpecPyInt IntGrammar SpecIPv6 IPv6Grammar
  HostStandard UrlProps WritingProofs WritingStandard Schemes Validators WritingValid WritingValidBase ExampleEnv SpecText SpecHost SpecUrl SpecParser SpecReports SpecHostReports SpecWriting SpecNamedScheme.
Import ListNotations.
Open Scope N_scope.

(** C98 is false: an IPv6 address with "::" after seven pieces is refused, and so is a
    domain whose last label only int() takes for a number. *)
Theorem C98_valid_silent_refuted :
  let valid := url_string true (domain_string (code_to_ascii ascii_env)) address_string None in
  (valid $"http://[1:2:3:4:5:6:7::]/" /\ snd (parse_new ascii_env $"http://[1:2:3:4:5:6:7::]/" None UTF8) = Err EIPv6) /\
  (valid $"http://a.0x-0/" /\ snd (parse_new ascii_env $"http://a.0x-0/" None UTF8) = Err EIPv4).
Proof.
  cbv zeta. assert (P : path_after_host true [47]) by (exists []; split; [reflexivity|]; split; [apply ps_last, uu_nil|intros _ t Q; discriminate Q]).
  assert (G : forall h, host_string (domain_string (code_to_ascii ascii_env)) address_string h -> url_string true (domain_string (code_to_ascii ascii_env)) address_string None ($"http://" ++ h ++ [47])).
  { intros h H. exists ($"http://" ++ h ++ [47]), []. split; [now rewrite app_nil_r|]. split; [now left|]. left. exists $"http", ($"//" ++ h ++ [47]), [].
    split; [now rewrite app_nil_r|]. split; [reflexivity|]. split; [now left|]. right; left. split; [apply UrlProps.special_spec; reflexivity|]. split; [discriminate|].
    exists h, [], [47]. split; [reflexivity|]. split; [exact H|]. split; [now left|]. now right. }
  split; (split; [|vm_compute; reflexivity]).
  - apply (G $"[1:2:3:4:5:6:7::]"). right. exists $"1:2:3:4:5:6:7::". split; [reflexivity|]. exists [1; 2; 3; 4; 5; 6; 7; 0]. apply std_v6_iff. vm_compute. reflexivity.
  - apply (G $"a.0x-0"). left. split.
    + split; [discriminate|]. intros c Hc F. assert (X : existsb std_forbidden_domain $"a.0x-0" = true) by (apply existsb_exists; eauto). discriminate X.
    + left. exists $"a.0x-0". repeat split; vm_compute; reflexivity.
Qed.
Print Assumptions C98_valid_silent_refuted.
(** Every valid URL string, without those two kinds of hosts ([regular_host] and [odd_v6]
    are those of C77 and C17), is parsed without reporting a validation error, and it is
    accepted unless it has more digits after a colon than int() reads. *)
Theorem C98_valid_silent_partial :
  forall E s base enc, limit_ok E -> normalize_encoding E enc = $"utf-8" -> std_good_base base -> idna_ok E -> scalar_string s ->
    url_string true (fun h => domain_string (code_to_ascii E) h /\ regular_host E h false) (fun a => address_string a /\ ~ odd_v6 a) base s ->
    fst (parse_new E s base enc) = [] /\
    ((forall a p b, s = a ++ 58 :: p ++ b -> forallb std_digit p = true -> short_for (int_limit E) p) ->
     exists u, parse_new E s base enc = ([], Ok u)).
Proof. exact valid_silent. Qed.
Print Assumptions C98_valid_silent_partial.
Example C98_case :
  url_string true (fun h => domain_string (code_to_ascii ascii_env) h /\ regular_host ascii_env h false) (fun a => address_string a /\ ~ odd_v6 a) None
    $"http://a.b:80/c%20?d#e" /\
  url_string true (fun h => domain_string (code_to_ascii ascii_env) h /\ regular_host ascii_env h false) (fun a => address_string a /\ ~ odd_v6 a)
    (Some (mkurl $"http" [] [] (Some (HStr $"h")) None (PList []) None None)) $"../c?d".
Proof.
  assert (U : forall s, std_bad_escape s = false -> existsb (fun c => negb (std_url_code_point c) && negb (c =? 37)) s = false -> unit_string s) by (intros s A B; apply HostReportProofs.units_none; auto).
  split.
  - exists $"http://a.b:80/c%20?d", $"#e". split; [reflexivity|]. split; [right; exists $"e"; split; [reflexivity|apply U; reflexivity]|]. left.
    exists $"http", $"//a.b:80/c%20", $"?d". split; [reflexivity|]. split; [reflexivity|]. split; [right; exists $"d"; split; [reflexivity|apply U; reflexivity]|].
    right; left. split; [apply UrlProps.special_spec; reflexivity|]. split; [discriminate|]. exists $"a.b", $":80", $"/c%20". split; [reflexivity|]. split; [left|].
    + split.
      * split; [split; [discriminate|]|].
        -- intros c Hc F. assert (X : existsb std_forbidden_domain $"a.b" = true) by (apply existsb_exists; eauto). discriminate X.
        -- left. exists $"a.b". repeat split; vm_compute; reflexivity.
      * apply bare_regular; [intros t Q; discriminate Q|]. intros d Q. assert (W : d = $"a.b") by (vm_compute in Q; injection Q as <-; reflexivity). subst d.
        split; [apply not_odd; vm_compute; reflexivity|]. intros X. discriminate X.
    + split; [right; exists $"80"; split; [reflexivity|]; split; [reflexivity|vm_compute; discriminate]|]. right. exists $"c%20". split; [reflexivity|].
      split; [apply path_units; split; [apply U; reflexivity|intros I; cbn in I; intuition discriminate]|]. intros _ t Q. discriminate Q.
  - exists $"../c?d", []. split; [reflexivity|]. split; [now left|]. right. eexists. split; [reflexivity|]. split; [|intros Q; discriminate Q].
    exists $"../c", $"?d". split; [reflexivity|]. split; [right; exists $"d"; split; [reflexivity|apply U; reflexivity]|]. left.
    split; [split; [apply path_units; split; [apply U; reflexivity|intros I; cbn in I; intuition discriminate]|intros t Q; discriminate Q]|].
    intros sch t Q. destruct sch as [|c sch]; [discriminate Q|]. injection Q as <- _. reflexivity.
Qed.

(** a port of 641 digits, limit 640: nothing is reported, and ValueError escapes *)
Example C98_long : parse_new low_env ($"http://h:" ++ repeat 48 639 ++ $"80/") None UTF8 = ([], Err EValue).
Proof. vm_compute. reflexivity. Qed.

(** C99 is false: these are accepted silently and are no valid URL strings. *)
Theorem C99_silent_valid_refuted :
  forall s, In s [$"data:a:b"; $"http://h//a"; $"file://"; $"file://h/C:/"] ->
    (exists u, parse_new ascii_env s None UTF8 = ([], Ok u)) /\
    ~ url_string true (domain_string (code_to_ascii ascii_env)) address_string None s.
Proof.
  assert (Hd : forall h, domain_string (code_to_ascii ascii_env) h -> h <> [] /\ ~ In 47 h).
  { intros h [[H0 H] _]. split; [exact H0|]. intros I. destruct (H 47 I eq_refl). discriminate. }
  assert (Hv : forall a, address_string a -> ~ In 47 a) by exact address_no_slash.
  intros s H. cbn [In] in H. destruct H as [<-|[<-|[<-|[<-|[]]]]]; (split; [eexists; vm_compute; reflexivity|]).
  - apply (scheme_like_invalid _ _ $"data" $"a" $"b"); [reflexivity|rewrite <- UrlProps.special_spec; vm_compute; discriminate|reflexivity|intros I; cbn in I; intuition discriminate..].
  - apply (double_slash_invalid _ _ Hd Hv $"h" $"a"); intros I; cbn in I; intuition discriminate.
  - apply (file_empty_invalid _ _ Hd Hv).
  - apply (file_drive_invalid _ _ Hd Hv $"h" $"C:" []); [discriminate|intros I; cbn in I; intuition discriminate|reflexivity|intros I; cbn in I; intuition discriminate..].
Qed.
Print Assumptions C99_silent_valid_refuted.
(** Exactly: the strings accepted without a report are those of the grammar without four
    of its restrictions ([strict = false]), where the domains are those on which the host
    parser reports nothing (C96), and the IPv6 addresses those that the code reads (C17),
    unless ValueError escapes (C126 says when).
    "Domain to ASCII" is assumed to keep forbidden code points in sight. *)
Theorem C99_silent_valid_partial :
  forall E s base enc, limit_ok E -> normalize_encoding E enc = $"utf-8" -> std_good_base base ->
    keeps_forbidden (code_to_ascii E) -> scalar_string s ->
    ((exists u, parse_new E s base enc = ([], Ok u)) <->
     url_string false (fun h => domain_chars true h /\ fst (host_parse E h false) = []) (fun a => exists x, code_v6_text a x) base s /\
     snd (parse_new E s base enc) <> Err EValue).
Proof. exact silent_iff. Qed.
Print Assumptions C99_silent_valid_partial.
(** Whenever the parser fails, it has reported something unless ValueError escapes. *)
Theorem C99_silence :
  forall E s base enc, normalize_encoding E enc = $"utf-8" -> std_good_base base ->
    snd (parse_new E s base enc) <> Err EValue -> fst (parse_new E s base enc) = [] -> exists u, parse_new E s base enc = ([], Ok u).
Proof. exact silent_ok. Qed.
Print Assumptions C99_silence.
Example C99_case :
  keeps_forbidden (code_to_ascii ascii_env) /\
  (exists u, parse_new ascii_env $"http://a.b:80/c%20?d#e" None UTF8 = ([], Ok u)) /\
  (exists u v l, parse_new ascii_env $"http://a.b:80/c%2?d#e" None UTF8 = (v :: l, Ok u)).
Proof.
  split; [|split; [eexists; vm_compute; reflexivity|eexists; eexists; eexists; vm_compute; reflexivity]].
  intros x d c T I F. unfold code_to_ascii in T. rewrite ascii_env_dta in T. destruct (forallb _ x); [|discriminate]. destruct (lower x) as [|y l] eqn:Q; [discriminate|]. injection T as <-.
  rewrite <- Q. apply existsb_exists. exists c. split; [|exact F]. unfold lower. apply in_map_iff. exists c. split; [|exact I].
  unfold lower1. unfold std_forbidden_domain, std_forbidden_host in F. cbn [one_of existsb] in F. replace ((65 <=? c) && (c <=? 90)) with false by lia. reflexivity.
Qed.

(** URLValidator.is_valid, called without a base, is the recognizer of this grammar with
    the registered schemes (ValueError for a port longer than int()'s limit aside). *)
Theorem C99_is_valid :
  forall E s enc v, limit_ok E -> normalize_encoding E enc = $"utf-8" -> keeps_forbidden (code_to_ascii E) -> scalar_string s ->
    let E1 := with_validity E true in
    (fst (url_is_valid E s BNone enc v) = Ok true <->
     url_string false (fun h => domain_chars true h /\ fst (host_parse E1 h false) = []) (fun a => exists x, code_v6_text a x) None s /\
     (exists sch t, s = sch ++ 58 :: t /\ std_scheme sch = true /\ In (std_lower sch) REGISTERED_SCHEMES) /\
     snd (parse_new E1 s None enc) <> Err EValue).
Proof. exact is_valid_grammar. Qed.
Print Assumptions C99_is_valid.
Example C99_is_valid_case :
  let valid s := fst (url_is_valid ascii_env s BNone UTF8 None) in
  valid $"http://a.b:80/c%20?d#e" = Ok true /\ valid $"data:a:b" = Ok true /\ valid $"http://a.b:80/c%2?d#e" = Ok false /\
  valid $"nosuchscheme://a" = Ok false /\ valid $"/a" = Ok false.
Proof. repeat split; vm_compute; reflexivity. Qed.

(** The same with a base record: the string is a URL string relative to it, and the scheme
    - its own one or that of the base - is registered. *)
Theorem C99_is_valid_record :
  forall E s b enc v, limit_ok E -> normalize_encoding E enc = $"utf-8" -> keeps_forbidden (code_to_ascii E) -> scalar_string s ->
    let E1 := with_validity E true in parsed E1 b ->
    (fst (url_is_valid E s (BRec b) enc v) = Ok true <->
     url_string false (fun h => domain_chars true h /\ fst (host_parse E1 h false) = []) (fun a => exists x, code_v6_text a x) (Some b) s /\
     (exists sch, names_scheme (Some b) s sch /\ In sch REGISTERED_SCHEMES) /\
     snd (parse_new E1 s (Some b) enc) <> Err EValue).
Proof. exact is_valid_record. Qed.
Print Assumptions C99_is_valid_record.
(** With a base string, that string has to be a URL string too; its scheme matters only if
    it is inherited. *)
Theorem C99_is_valid_string :
  forall E s t enc v, limit_ok E -> normalize_encoding E enc = $"utf-8" -> keeps_forbidden (code_to_ascii E) -> scalar_string s -> scalar_string t ->
    let E1 := with_validity E true in
    let fits := url_string false (fun h => domain_chars true h /\ fst (host_parse E1 h false) = []) (fun a => exists x, code_v6_text a x) in
    (fst (url_is_valid E s (BStr t) enc v) = Ok true <->
     exists b, snd (parse_new E1 t None enc) = Ok b /\ fits None t /\ fits (Some b) s /\
       (exists sch, names_scheme (Some b) s sch /\ In sch REGISTERED_SCHEMES) /\
       snd (parse_new E1 s (Some b) enc) <> Err EValue).
Proof. exact is_valid_string. Qed.
Print Assumptions C99_is_valid_string.
Example C99_is_valid_base_case :
  let valid s t := fst (url_is_valid ascii_env s (BStr t) UTF8 None) in
  valid $"../c?d#e" $"http://a/b/x" = Ok true /\ valid $"../c%2" $"http://a/b/x" = Ok false /\ valid $"/c" $"http://a/%2" = Ok false /\
  valid $"/c" $"nosuchscheme://a/" = Ok false /\ valid $"http://b/" $"nosuchscheme://a/" = Ok true /\
  valid $"#x" $"data:a" = Ok true /\ valid $"x" $"data:a" = Ok false.
Proof. repeat split; vm_compute; reflexivity. Qed.
Example C99_is_valid_record_case :
  let b := match snd (parse_url ascii_env $"http://a/b/x" BNone UTF8) with Ok u => u | Err _ => new_url end in
  let valid s := fst (url_is_valid ascii_env s (BRec b) UTF8 None) in
  parsed (with_validity ascii_env true) b /\ valid $"../c?d#e" = Ok true /\ valid $"../c%2" = Ok false /\ valid $"//[::1]:8/" = Ok true /\ valid $"nosuchscheme:x" = Ok false.
Proof.
  split; [|repeat split; vm_compute; reflexivity]. apply (parsed_none _ $"http://a/b/x" UTF8); [|left; vm_compute; reflexivity|vm_compute; reflexivity].
  apply Forall_forall. intros c H. assert (X : forallb (fun c => c <=? 1114111) $"http://a/b/x" = true) by (vm_compute; reflexivity). rewrite forallb_forall in X. apply N.leb_le. now apply X.
Qed.
