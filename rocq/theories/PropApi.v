(** Property theorems for URL objects: C46-C58, C65. *)
From Coq Require Import Ascii String.
From Coq Require Import NArith ZArith Bool Arith List.
From Verif Require Import PyStr PyInt Codec Env HostModel UrlRecord Parser SearchParams UrlApi Schemes Validators.
From Verif Require Import LegacyProofs IPv4Proofs HostProofs WfProofs RoundTrip LooseProofs UrlProps ApiProofs ObjProofs ValidityProofs ExactProofs ExampleEnv PyIntProofs SpecText SpecHost SpecUrl SpecApi.
Import ListNotations.
Open Scope N_scope.

Definition obj (s : list N) : urlobj := match url_new ascii_env s BNone with Ok o => o | Err _ => mkobj new_url [] end.
Definition href_after (cs : list call) (s : list N) : list N := get_href (do_calls ascii_env cs (obj s)).
Ltac pys := repeat constructor; discriminate.
Ltac reach := repeat (apply reached_call; [pys|]); match goal with |- reached _ (obj ?s) => apply (reached_new ascii_env s); [pys|vm_compute; reflexivity] end.

(** C46. [own]: the fields a setter is meant to change. *)
Theorem C46_setters_local :
  forall E s o c, reached E o -> is_pystr (text_of s) -> ~ In c (own s) ->
  agree c (o_url o) (o_url (fst (set_attr E s o))) \/
  c = CPath /\ (exists v, s = SetHash v \/ s = SetSearch v) /\ space_stripped (o_url o) (o_url (fst (set_attr E s o))).
Proof. exact setter_frame. Qed.
Print Assumptions C46_setters_local.
Theorem C46_protocol_port :
  forall E v o, let o' := fst (set_attr E (SetProtocol v) o) in
  port (o_url o') = port (o_url o) \/
  port (o_url o') = None /\ exists p, port (o_url o) = Some p /\ std_default_port (scheme (o_url o')) p.
Proof. exact protocol_port. Qed.
Print Assumptions C46_protocol_port.
Theorem C46_list_untouched :
  forall E s o, (forall v, s <> SetSearch v /\ s <> SetHref v) -> o_list (fst (set_attr E s o)) = o_list o.
Proof. exact setter_list. Qed.
Print Assumptions C46_list_untouched.
Example C46_case :
  reached ascii_env (obj $"http://u:p@h:8080/a?q#f") /\
  href_after [CSet (SetHost $"EX.org:81/zz")] $"http://u:p@h:8080/a?q#f" = $"http://u:p@ex.org:81/a?q#f" /\
  href_after [CSet (SetProtocol $"https:x"); CSet (SetPathname $"b/../c")] $"http://u:p@h:443/a?q#f" = $"https://u:p@h/c?q#f" /\
  href_after [CSet (SetHash [])] $"x:a  #f" = $"x:a".
Proof. split; [reach|]. repeat split; vm_compute; reflexivity. Qed.

(** C47: false for the host setter, which replaces the host before it reads the port. *)
Theorem C47_raise_unchanged_refuted :
  exists o v e, reached ascii_env o /\ is_pystr v /\ snd (set_attr ascii_env (SetHost v) o) = Err e /\
  get_href (fst (set_attr ascii_env (SetHost v) o)) <> get_href o.
Proof.
  exists (obj $"http://h/"), $"example.com:99999", EURLParse. split; [reach|]. split; [pys|]. split; [vm_compute; reflexivity|]. vm_compute. discriminate.
Qed.
Print Assumptions C47_raise_unchanged_refuted.
(** Missing from the full statement: exactly that case. *)
Theorem C47_raise_unchanged_partial :
  forall E s o e, snd (set_attr E s o) = Err e ->
  fst (set_attr E s o) = o \/
  exists v h a d r, s = SetHost v /\ fst (set_attr E s o) = mkobj (set_host (Some h) (o_url o)) (o_list o) /\
    std_strip_tabs v = a ++ 58 :: d ++ r /\ a <> [] /\ bad_port_text E d /\ (forall c t, r = c :: t -> std_digit c = false).
Proof. exact setter_raise. Qed.
Print Assumptions C47_raise_unchanged_partial.
Example C47_case :
  set_attr ascii_env (SetHost $"a b") (obj $"http://h/") = (obj $"http://h/", Err EHostParse) /\
  set_attr ascii_env (SetHref $"x") (obj $"http://h/") = (obj $"http://h/", Err EURLParse) /\
  set_attr ascii_env (SetProtocol $"1") (obj $"http://h/") = (obj $"http://h/", Err EURLParse).
Proof. repeat split; vm_compute; reflexivity. Qed.

(** C48: false, because a port 0 counts as no port when the host is emptied or
    the scheme becomes file. *)
Theorem C48_invariant_kept_refuted :
  (exists o, reached ascii_env o /\ port (o_url o) = Some 0 /\ uhost (o_url o) = Some (HStr [])) /\
  (exists o, reached ascii_env o /\ port (o_url o) = Some 0 /\ scheme (o_url o) = $"file") /\
  (exists o, reached ascii_env o /\ ~ url_invariant (o_url o)).
Proof.
  assert (A : reached ascii_env (do_call ascii_env (CSet (SetHost [])) (obj $"a://h:0"))) by reach.
  split; [|split].
  - eexists. split; [exact A|]. split; vm_compute; reflexivity.
  - exists (do_call ascii_env (CSet (SetProtocol $"file")) (obj $"http://h:0")). split; [reach|]. split; vm_compute; reflexivity.
  - eexists. split; [exact A|]. intros H. destruct (inv_creds _ H) as (_ & X & _); [right; right; vm_compute; discriminate|]. apply X. vm_compute. reflexivity.
Qed.
Print Assumptions C48_invariant_kept_refuted.
(** Missing: objects whose port is 0; those satisfy the invariant when the port
    is disregarded. *)
Theorem C48_invariant_kept_partial :
  forall E o, reached E o -> (port (o_url o) <> Some 0 -> url_invariant (o_url o)) /\ url_invariant (set_port None (o_url o)).
Proof. exact reached_invariant. Qed.
Print Assumptions C48_invariant_kept_partial.
Example C48_case :
  let cs := [CSet (SetHost $"h:8080"); CSet (SetUsername $"a@"); CSet (SetPathname $"\x"); CParams (OpAppend $"k" (PVStr $"v w"));
             CSet (SetProtocol $"https"); CParams OpSort; CSet (SetHash $"#f")] in
  href_after cs $"http://g?b=1" = $"https://a%40@h:8080/x?b=1&k=v+w#f" /\
  reached ascii_env (do_calls ascii_env [CSet (SetHost $"h:8080"); CSet (SetPathname $"\x")] (obj $"http://g?b=1")).
Proof. split; [vm_compute; reflexivity|]. unfold do_calls. cbn [fold_left]. reach. Qed.

(** C49: false after a port 0 lost its host, and for file URLs made by the
    protocol setter that keep the host "localhost" or a drive letter "C|". *)
Theorem C49_reparse_refuted :
  (exists o e, reached ascii_env o /\ url_new ascii_env (get_href o) BNone = Err e) /\
  (exists o o', reached ascii_env o /\ scheme (o_url o) = $"file" /\ port (o_url o) = None /\
     url_new ascii_env (get_href o) BNone = Ok o' /\ uhost (o_url o') <> uhost (o_url o)) /\
  (exists o o', reached ascii_env o /\ scheme (o_url o) = $"file" /\ port (o_url o) = None /\
     url_new ascii_env (get_href o) BNone = Ok o' /\ path (o_url o') <> path (o_url o)).
Proof.
  split; [|split].
  - exists (do_call ascii_env (CSet (SetHost [])) (obj $"a://h:0")), EURLParse. split; [reach|]. vm_compute. reflexivity.
  - exists (do_call ascii_env (CSet (SetProtocol $"file")) (obj $"http://localhost/x")). eexists. split; [reach|].
    split; [vm_compute; reflexivity|]. split; [vm_compute; reflexivity|]. split; [vm_compute; reflexivity|]. vm_compute. discriminate.
  - exists (do_call ascii_env (CSet (SetProtocol $"file")) (obj $"http://h/C|/x")). eexists. split; [reach|].
    split; [vm_compute; reflexivity|]. split; [vm_compute; reflexivity|]. split; [vm_compute; reflexivity|]. vm_compute. discriminate.
Qed.
Print Assumptions C49_reparse_refuted.
(** Exactly those objects, and those with an IPv4 value of 2^32 or more (C30), do not
    come back. *)
Theorem C49_reparse_partial :
  forall E o, limit_ok E -> idna_ok E -> reached E o ->
  (url_new E (get_href o) BNone = Ok o <->
   url_v4_ok (o_url o) /\
   (port (o_url o) = Some 0 -> exists h, uhost (o_url o) = Some h /\ h <> HStr [] /\ scheme (o_url o) <> $"file") /\
   (scheme (o_url o) = $"file" -> uhost (o_url o) <> Some (HStr $"localhost") /\
      forall c d l, path (o_url o) = PList ([c; d] :: l) -> std_alpha c = true -> d <> 124)).
Proof. exact reparse_exact. Qed.
Print Assumptions C49_reparse_partial.
Example C49_case :
  let o := do_calls ascii_env [CSet (SetProtocol $"file"); CSet (SetHost $"H"); CSet (SetPathname $"C|/y"); CParams (OpSet $"a" (PVStr [233]))] (obj $"http://g/x") in
  reached ascii_env o /\ get_href o = $"file://h/C:/y?a=%C3%A9" /\ url_new ascii_env (get_href o) BNone = Ok o.
Proof. split; [unfold do_calls; cbn [fold_left]; reach|]. split; vm_compute; reflexivity. Qed.

(** C33 after any history of calls *)
Theorem C33_reached_printable :
  forall E o c, limit_ok E -> idna_ok E -> reached E o -> In c (get_href o) ->
    33 <= c <= 126 \/ (c = 32 /\ exists s, path (o_url o) = POpaque s /\ In c s).
Proof. exact reached_href_chars. Qed.
Print Assumptions C33_reached_printable.
Example C33_reached_case :
  let o := do_calls ascii_env [CSet (SetUsername [233; 32]); CSet (SetHash [8364]); CSet (SetPathname $"a b")] (obj $"http://g/x") in
  reached ascii_env o /\ get_href o = $"http://%C3%A9%20@g/a%20b#%E2%82%AC".
Proof. split; [unfold do_calls; cbn [fold_left]; reach|]. vm_compute; reflexivity. Qed.

(** C50 *)
Theorem C50_params_in_sync :
  forall E o, reached E o ->
  o_list o = std_urlencoded_parse (std_utf8_encode (scalar_value_string (match query (o_url o) with Some q => q | None => [] end))).
Proof. exact reached_sync. Qed.
Print Assumptions C50_params_in_sync.
Example C50_case :
  let o := do_calls ascii_env [CParams (OpAppend $"k" (PVStr $"v&w")); CSet (SetSearch $"?x=%2B+1"); CParams (OpSet $"y" (PVNum $"2"))] (obj $"http://g?b=1") in
  query (o_url o) = Some $"x=%2B+1&y=2" /\ o_list o = [($"x", $"+ 1"); ($"y", $"2")].
Proof. split; vm_compute; reflexivity. Qed.

(** C51 *)
Theorem C51_no_default_port :
  forall E o p, reached E o -> port (o_url o) = Some p -> ~ std_default_port (scheme (o_url o)) p.
Proof. exact reached_port. Qed.
Print Assumptions C51_no_default_port.
Example C51_case :
  port (o_url (do_calls ascii_env [CSet (SetPort $"443"); CSet (SetProtocol $"https")] (obj $"http://h"))) = None /\
  port (o_url (do_calls ascii_env [CSet (SetProtocol $"https"); CSet (SetHost $"g:80")] (obj $"http://h"))) = Some 80.
Proof. split; vm_compute; reflexivity. Qed.

(** C52 *)
Theorem C52_guarded_setters :
  forall E o v,
  (std_opaque (o_url o) ->
   set_attr E (SetHost v) o = (o, Ok tt) /\ set_attr E (SetHostname v) o = (o, Ok tt) /\ set_attr E (SetPathname v) o = (o, Ok tt)) /\
  (std_no_authority (o_url o) ->
   set_attr E (SetUsername v) o = (o, Ok tt) /\ set_attr E (SetPassword v) o = (o, Ok tt) /\ set_attr E (SetPort v) o = (o, Ok tt)).
Proof. exact guards. Qed.
Print Assumptions C52_guarded_setters.
Example C52_case : std_opaque (o_url (obj $"mailto:x")) /\ std_no_authority (o_url (obj $"file://h/x")) /\ std_no_authority (o_url (obj $"a:/x")).
Proof. split; [exists $"x"; vm_compute; reflexivity|]. split; [right; right; vm_compute; reflexivity|left; vm_compute; reflexivity]. Qed.

(** C53 *)
Theorem C53_set_get :
  (forall E o v, ~ std_no_authority (o_url o) -> is_pystr v ->
     get_username (fst (set_attr E (SetUsername v) o)) = std_percent_encode userinfo_set false v /\
     get_password (fst (set_attr E (SetPassword v) o)) = std_percent_encode userinfo_set false v) /\
  (forall E o v, is_pystr v ->
     get_hash (fst (set_attr E (SetHash v) o)) = prefixed 35 (std_percent_encode fragment_set false (std_strip_tabs (without_leading 35 v)))) /\
  (forall E o v, is_pystr v ->
     get_search (fst (set_attr E (SetSearch v) o)) =
     prefixed 63 (std_percent_encode (if str_in (scheme (o_url o)) (map fst std_special_schemes) then special_query_set else SpecText.query_set) false
                    (std_strip_tabs (without_leading 63 v)))) /\
  (forall E o n d, limit_ok E -> ~ std_no_authority (o_url o) -> n <= 65535 -> shortest_in_base 10 n d ->
     snd (set_attr E (SetPort d) o) = Ok tt /\
     (std_default_port (scheme (o_url o)) n -> get_port (fst (set_attr E (SetPort d) o)) = []) /\
     (~ std_default_port (scheme (o_url o)) n -> get_port (fst (set_attr E (SetPort d) o)) = d)).
Proof. exact (conj set_get_creds (conj set_get_hash (conj set_get_search set_get_port))). Qed.
Print Assumptions C53_set_get.
Example C53_case :
  let o := obj $"http://h/" in
  get_username (fst (set_attr ascii_env (SetUsername ($"a/" ++ [233])) o)) = $"a%2F%C3%A9" /\
  get_hash (fst (set_attr ascii_env (SetHash $"##a b") o)) = $"##a%20b" /\ get_hash (fst (set_attr ascii_env (SetHash $"#") o)) = [] /\
  get_port (fst (set_attr ascii_env (SetPort $"65535") o)) = $"65535" /\ get_port (fst (set_attr ascii_env (SetPort $"80") o)) = [] /\
  ~ std_no_authority (o_url o).
Proof. repeat (split; [vm_compute; reflexivity|]). intros [X|[X|X]]; vm_compute in X; discriminate. Qed.

(** C54 *)
Theorem C54_equality :
  (forall a b, (url_equals a b false = true <-> get_href a = get_href b) /\
     (url_equals a b true = true <-> href (set_fragment None (o_url a)) = href (set_fragment None (o_url b)))) /\
  (forall x, (forall a, url_equals a a x = true) /\ (forall a b, url_equals a b x = url_equals b a x) /\
     (forall a b c, url_equals a b x = true -> url_equals b c x = true -> url_equals a c x = true)).
Proof. exact (conj equals_spec equals_equiv). Qed.
Print Assumptions C54_equality.
Example C54_case :
  url_equals (obj $"http://h/a#x") (obj $"HTTP:\\h/a#x") false = true /\ url_equals (obj $"http://h/a#x") (obj $"http://h/a#y") false = false /\
  url_equals (obj $"http://h/a#x") (obj $"http://h/a#y") true = true /\ url_equals (obj $"http://h/a?") (obj $"http://h/a") true = false.
Proof. repeat split; vm_compute; reflexivity. Qed.

(** C55: false, because can_parse formats an error message holding the IPv4
    numbers, and int -> str raises ValueError above the limit, while the
    constructor does not format it. *)
Definition huge_v4 : list N := $"http://0x" ++ repeat 70 540 ++ $".256".
Theorem C55_can_parse_refuted :
  exists s o, is_pystr s /\ url_new low_env s BNone = Ok o /\ can_parse low_env s BNone = Err EValue.
Proof.
  exists huge_v4. eexists. split; [|split; vm_compute; reflexivity].
  apply Forall_forall. intros c H. unfold huge_v4 in H. apply in_app_or in H as [H|H]; [|apply in_app_or in H as [H|H]].
  - revert c H. apply Forall_forall. pys.
  - apply repeat_spec in H. subst. discriminate.
  - revert c H. apply Forall_forall. pys.
Qed.
Print Assumptions C55_can_parse_refuted.
(** Missing: the cases in which can_parse raises ValueError. *)
Theorem C55_can_parse_partial :
  forall E s base, is_pystr s -> base_reached E base ->
  (can_parse E s base = Ok true -> exists o, url_new E s base = Ok o) /\
  (can_parse E s base = Ok false -> exists e, url_new E s base = Err e /\ is_url_error e = true) /\
  (forall o, url_new E s base = Ok o -> can_parse E s base = Ok true \/ (can_parse E s base = Err EValue /\ int_limit E <> None)) /\
  (forall e, url_new E s base = Err e -> can_parse E s base = Ok false \/ (can_parse E s base = Err EValue /\ int_limit E <> None)).
Proof. exact can_parse_reached. Qed.
Print Assumptions C55_can_parse_partial.
(** In full without the limit (sys.set_int_max_str_digits(0)). *)
Theorem C55_can_parse_no_limit :
  forall E s base, int_limit E = None -> is_pystr s -> base_reached E base ->
  (can_parse E s base = Ok true <-> exists o, url_new E s base = Ok o) /\
  (can_parse E s base = Ok false <-> exists e, url_new E s base = Err e).
Proof. exact can_parse_no_limit. Qed.
Print Assumptions C55_can_parse_no_limit.
Definition no_limit_env : env :=
  {| icu_to_ascii := icu_to_ascii ascii_env; icu_to_unicode := icu_to_unicode ascii_env; codec := codec ascii_env;
     uni_decimal := uni_decimal ascii_env; uni_space := uni_space ascii_env; uni_lower := uni_lower ascii_env;
     int_limit := None; has_validity := false |}.
Example C55_no_limit_case : int_limit no_limit_env = None /\ can_parse no_limit_env huge_v4 BNone = Ok true.
Proof. split; vm_compute; reflexivity. Qed.
Example C55_case :
  can_parse ascii_env $"../x" (BStr $"http://h/a/b/c") = Ok true /\ can_parse ascii_env $"../x" (BStr $"a:b") = Ok false /\
  can_parse ascii_env $"../x" (BStr $"b") = Ok false /\ can_parse ascii_env $"http://h:x" BNone = Ok false.
Proof. repeat split; vm_compute; reflexivity. Qed.

(** C56: false for a blob whose path raises ValueError (C27). *)
Theorem C56_origin_refuted :
  exists o, reached low_env o /\ scheme (o_url o) = $"blob" /\ record_origin low_env (o_url o) = Err EValue.
Proof.
  set (s := $"blob:http://h:" ++ repeat 48 641).
  assert (P : is_pystr s).
  { apply Forall_app. split; [pys|]. apply Forall_forall. intros c H. apply repeat_spec in H. subst. discriminate. }
  eexists. split; [apply (reached_new low_env s _ P); vm_compute; reflexivity|]. split; vm_compute; reflexivity.
Qed.
Print Assumptions C56_origin_refuted.
(** Missing: that exception, which is passed on. *)
Theorem C56_origin_partial :
  forall E u,
  (std_network_scheme (scheme u) -> record_origin E u = Ok (Some (mkorigin (scheme u) (uhost u) (port u) None))) /\
  (~ std_network_scheme (scheme u) -> scheme u <> $"blob" -> record_origin E u = Ok None) /\
  (scheme u = $"blob" -> record_origin E u =
   match url_new E (serialize_path u) BNone with
   | Ok p => if str_in (scheme (o_url p)) [$"http"; $"https"]
             then Ok (Some (mkorigin (scheme (o_url p)) (uhost (o_url p)) (port (o_url p)) None)) else Ok None
   | Err e => if is_url_error e then Ok None else Err e
   end).
Proof. intros E u. exact (conj (origin_network E u) (conj (origin_other E u) (origin_blob E u))). Qed.
Print Assumptions C56_origin_partial.
Example C56_case :
  let o s := get_origin ascii_env (obj s) in
  o $"blob:https://h:8080/x" = Ok $"https://h:8080" /\ o $"blob:ftp://h/x" = Ok $"null" /\ o $"blob:file:///x" = Ok $"null" /\
  o $"ws://u@h:81/x" = Ok $"ws://h:81" /\ o $"file:///x" = Ok $"null" /\ o $"a://h/" = Ok $"null".
Proof. repeat split; vm_compute; reflexivity. Qed.

(** C57 *)
Theorem C57_same_origin :
  (forall a b, is_same_origin a b = true <-> std_same_origin a b) /\
  (forall a, is_same_origin a a = true) /\ (forall a b, is_same_origin a b = is_same_origin b a) /\
  (forall a b c, is_same_origin a b = true -> is_same_origin b c = true -> is_same_origin a c = true).
Proof. exact (conj same_origin_spec same_origin_equiv). Qed.
Print Assumptions C57_same_origin.
(** "URL(u.href) is same-origin with u" is false for IPv4 values of 2^32 or more (C14) ... *)
Theorem C57_reparse_refuted :
  exists o o' a b, reached ascii_env o /\ url_new ascii_env (get_href o) BNone = Ok o' /\
  record_origin ascii_env (o_url o) = Ok (Some a) /\ record_origin ascii_env (o_url o') = Ok (Some b) /\ is_same_origin a b = false.
Proof.
  exists (obj $"http://256.256/"). do 3 eexists. split; [reach|]. split; [vm_compute; reflexivity|]. split; [vm_compute; reflexivity|].
  split; vm_compute; reflexivity.
Qed.
Print Assumptions C57_reparse_refuted.
(** ... and true for exactly the others. *)
Theorem C57_reparse_partial :
  forall E o og, limit_ok E -> idna_ok E -> reached E o -> record_origin E (o_url o) = Ok (Some og) ->
  ((exists o' og', url_new E (get_href o) BNone = Ok o' /\ record_origin E (o_url o') = Ok (Some og') /\ is_same_origin og og' = true) <->
   url_v4_ok (o_url o)).
Proof. exact origin_exact. Qed.
Print Assumptions C57_reparse_partial.
Example C57_case : exists og, record_origin ascii_env (o_url (obj $"blob:http://1.2:99/")) = Ok (Some og) /\
  og = mkorigin $"http" (Some (HIPv4 16777218)) (Some 99) None /\ reached ascii_env (obj $"blob:http://1.2:99/").
Proof. eexists. split; [vm_compute; reflexivity|]. split; [reflexivity|reach]. Qed.

(** C58: false when both domains are the empty string, which counts as null
    in one test but not in the other. *)
Theorem C58_origin_domain_refuted :
  exists a b, std_same_origin_domain a b /\ is_same_origin_domain a b = false.
Proof.
  exists (mkorigin $"http" None None (Some [])), (mkorigin $"http" None None (Some [])). split; [|vm_compute; reflexivity].
  left. repeat split. discriminate.
Qed.
Print Assumptions C58_origin_domain_refuted.
(** Missing: that case. *)
Theorem C58_origin_domain_partial :
  (forall a b, og_domain a <> Some [] -> (is_same_origin_domain a b = true <-> std_same_origin_domain a b)) /\
  (forall a b, is_same_origin_domain a b = is_same_origin_domain b a).
Proof. exact (conj origin_domain_spec origin_domain_sym). Qed.
Print Assumptions C58_origin_domain_partial.
Example C58_case :
  let o h d := mkorigin $"http" (Some (HStr h)) None d in
  is_same_origin_domain (o $"a.x" (Some $"x")) (o $"b.x" (Some $"x")) = true /\ is_same_origin_domain (o $"a.x" (Some $"x")) (o $"a.x" None) = false /\
  is_same_origin_domain (o $"a.x" None) (o $"a.x" None) = true /\ is_same_origin_domain (o $"a.x" None) (o $"b.x" None) = false.
Proof. repeat split; vm_compute; reflexivity. Qed.

(** C65 *)
Theorem C65_valid_parsable :
  forall E s base enc v, enc_ok E (normalize_encoding E enc) -> is_pystr s -> base_parsed (with_validity E true) base ->
  fst (url_is_valid E s base enc v) = Ok true ->
  exists u, snd (parse_url (with_validity E false) s base enc) = Ok u /\ fst (parse_url (with_validity E true) s base enc) = [] /\
            In (scheme u) REGISTERED_SCHEMES.
Proof. exact url_valid_parses. Qed.
Print Assumptions C65_valid_parsable.
(** and conversely *)
Theorem C65_valid_exactly :
  forall E s base enc v, enc_ok E (normalize_encoding E enc) -> is_pystr s -> base_parsed (with_validity E true) base ->
  (fst (url_is_valid E s base enc v) = Ok true <->
   exists u, parse_url (with_validity E true) s base enc = ([], Ok u) /\ In (scheme u) REGISTERED_SCHEMES).
Proof. exact url_valid_spec. Qed.
Print Assumptions C65_valid_exactly.
Example C65_case :
  let v s b := fst (url_is_valid ascii_env s b UTF8 None) in
  v $"https://example.com/a?b#c" BNone = Ok true /\ v $"../x" (BStr $"http://h/a/b") = Ok true /\ v $"https:\\example.com" BNone = Ok false /\
  v $"nosuchscheme://h" BNone = Ok false /\ v $"http://u@h" BNone = Ok false /\ v $"x" BNone = Ok false.
Proof. repeat split; vm_compute; reflexivity. Qed.
