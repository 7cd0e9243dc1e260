(** Property theorems C11, C26-C40, C44, C45 and C72-C74: the URL parser. *)
From Coq Require Import Ascii String.
From Coq Require Import NArith ZArith Bool Arith Lia List.
From Verif Require Import PyStr PyInt Codec Env HostModel UrlRecord Parser SearchParams UrlApi SpecText SpecHost SpecUrl.
From Verif Require Import QuoteProofs PyIntProofs LegacyProofs IPv4Proofs HostProofs TermProofs WfProofs RoundTrip UrlProps QueryProofs ExampleEnv SpecUrl.
Import ListNotations.
Open Scope N_scope.

(** parsing without base, for the Examples *)
Definition p0 (s : str) : res urlrec := snd (parse_url ascii_env s BNone UTF8).
Definition hrefs (r : res urlrec) : res str := match r with Ok u => Ok (href u) | Err e => Err e end.
(** records for the Examples *)
Definition rec_http : urlrec := mkurl $"http" $"us" $"p%40w" (Some (HStr $"h")) (Some 8080) (PList [$"a"; $"b"]) (Some $"q") (Some $"f").
Definition rec_file : urlrec := mkurl $"file" [] [] (Some (HStr [])) None (PList [$"C:"; $"x"; $"y"]) None None.
Definition rec_opaque : urlrec := mkurl $"mailto" [] [] None None (POpaque $"a b") (Some $"q") None.
Lemma rec_http_parsed : parsed ascii_env rec_http.
Proof.
  apply (parsed_none ascii_env $"HTTP://us:p@w@H:8080/x/../a/./b?q#f" UTF8); [repeat constructor; discriminate|left; reflexivity|vm_compute; reflexivity].
Qed.
Lemma rec_file_parsed : parsed ascii_env rec_file.
Proof. apply (parsed_none ascii_env $"file:///C|/x/y" UTF8); [repeat constructor; discriminate|left; reflexivity|vm_compute; reflexivity]. Qed.
Lemma rec_opaque_parsed : parsed ascii_env rec_opaque.
Proof. apply (parsed_none ascii_env $"mailto:a b?q" UTF8); [repeat constructor; discriminate|left; reflexivity|vm_compute; reflexivity]. Qed.

(** C11 *)
Theorem C11_urlencode_embeds :
  (forall l c, pystr_pairs l -> In c (urlencode l) ->
     48 <= c <= 57 \/ 65 <= c <= 90 \/ 97 <= c <= 122 \/ In c $"*-._~+%=&") /\
  (forall E pre l enc u, enc_ok E (normalize_encoding E enc) -> pystr_pairs l ->
     ~ In 63 pre -> ~ In 35 pre -> (forall a c, pre = a ++ [c] -> std_c0_space c = false) ->
     snd (parse_url E pre BNone enc) = Ok u ->
     snd (parse_url E (pre ++ $"?" ++ urlencode l) BNone enc) = Ok (set_query (Some (urlencode l)) u)).
Proof. exact (conj urlencode_alphabet urlencode_embeds). Qed.
Print Assumptions C11_urlencode_embeds.
Example C11_case : urlencode [($"a b", $"1&2"); ([233], [])] = $"a+b=1%262&%C3%A9=" /\ hrefs (p0 $"http://h/x") = Ok $"http://h/x".
Proof. split; vm_compute; reflexivity. Qed.

(** C26: [calls n st rest u] is a run of exactly [n] state-function calls from
    state [st] with input [rest] and record [u], ended by EOF or an exception. *)
Theorem C26_parser_terminates :
  forall E base enc so st rest u,
    (exists n, (n <= 12)%nat /\ calls E base enc so n st rest u) /\
    (forall n m, calls E base enc so n st rest u -> calls E base enc so m st rest u -> n = m).
Proof.
  exact (fun E base enc so st rest u => conj (calls_bounded E base enc so st rest u) (fun n m H => calls_fun E base enc so n st rest u H m)).
Qed.
Print Assumptions C26_parser_terminates.
(** 12 calls are reached *)
Example C26_case : calls ascii_env (Some rec_http) $"utf-8" None 12 SCHEME_START $"http:/\h:1/p?q#f" new_url.
Proof. do 12 (eapply calls_next; [discriminate|vm_compute; reflexivity|cbn [skipn]]). constructor. Qed.

(** C27: false, because int() refuses long digit strings with ValueError. *)
Theorem C27_only_url_errors_refuted :
  (exists s, is_pystr s /\ snd (parse_url low_env s BNone UTF8) = Err EValue) /\
  (exists s, is_pystr s /\ can_parse low_env s BNone = Err EValue).
Proof.
  split; exists ($"http://h:" ++ repeat 48 641); (split; [|vm_compute; reflexivity]);
    apply Forall_app; (split; [repeat constructor; discriminate|]); apply Forall_forall; intros c H; apply repeat_spec in H; subst; discriminate.
Qed.
Print Assumptions C27_only_url_errors_refuted.
(** ValueError is the only other exception, and it needs the int/str limit. *)
Theorem C27_only_url_errors_partial :
  (forall E s base enc e, enc_ok E (normalize_encoding E enc) -> is_pystr s -> base_parsed E base ->
     snd (parse_url E s base enc) = Err e -> is_url_error e = true \/ (e = EValue /\ int_limit E <> None)) /\
  (forall E s base, int_limit E = None -> is_pystr s -> base_parsed (with_validity E true) base ->
     exists b, can_parse E s base = Ok b).
Proof. exact (conj parse_url_error can_parse_bool). Qed.
Print Assumptions C27_only_url_errors_partial.
Example C27_case : p0 $"http://a b/" = Err EHostParse /\ p0 $"/x" = Err EURLParse /\ p0 $"http://h:99999" = Err EURLParse.
Proof. repeat split; vm_compute; reflexivity. Qed.

(** C28: false for the ValueError of C27. *)
Theorem C28_failure_explained_refuted :
  exists s, fst (parse_url low_env s BNone UTF8) = [] /\ snd (parse_url low_env s BNone UTF8) = Err EValue.
Proof. exists ($"http://h:" ++ repeat 48 641). split; vm_compute; reflexivity. Qed.
Print Assumptions C28_failure_explained_refuted.
Theorem C28_failure_explained_partial :
  forall E s base enc e, snd (parse_url E s base enc) = Err e -> is_url_error e = true ->
    fst (parse_url E s base enc) <> [].
Proof. exact parse_url_loud. Qed.
Print Assumptions C28_failure_explained_partial.
Example C28_case : exists l, parse_url ascii_env $"http://h:x" BNone UTF8 = (l, Err EURLParse) /\ length l = 1%nat.
Proof. eexists. split; vm_compute; reflexivity. Qed.

(** C29 *)
Theorem C29_record_invariant : forall E u, parsed E u -> url_invariant u.
Proof. exact (fun E u H => wf_invariant (hostval E) u (parsed_wf E u H)). Qed.
Print Assumptions C29_record_invariant.
Example C29_case : parsed ascii_env rec_http /\ parsed ascii_env rec_file /\ parsed ascii_env rec_opaque.
Proof. exact (conj rec_http_parsed (conj rec_file_parsed rec_opaque_parsed)). Qed.

(** C30: [url_v4_ok]: an IPv4 host value is below 2^32 *)
Theorem C30_round_trip :
  forall E u enc, limit_ok E -> idna_ok E -> enc_ok E (normalize_encoding E enc) -> parsed E u -> url_v4_ok u ->
    snd (parse_url E (href u) BNone enc) = Ok u.
Proof. exact parse_round_trip. Qed.
Print Assumptions C30_round_trip.
Example C30_case : limit_ok ascii_env /\ idna_ok ascii_env /\ parsed ascii_env rec_http /\ url_v4_ok rec_http /\
  href rec_http = $"http://us:p%40w@h:8080/a/b?q#f".
Proof. split; [exact ascii_env_limit|]. split; [exact ascii_env_idna|]. split; [exact rec_http_parsed|]. split; [intros n; discriminate|reflexivity]. Qed.
(** without [url_v4_ok] it fails *)
Theorem C30_round_trip_v4_refuted :
  exists u, parsed ascii_env u /\ snd (parse_url ascii_env (href u) BNone UTF8) <> Ok u.
Proof.
  exists (mkurl $"http" [] [] (Some (HIPv4 4294967552)) None (PList [[]]) None None). split.
  - apply (parsed_none ascii_env $"http://256.256/" UTF8); [repeat constructor; discriminate|left; reflexivity|vm_compute; reflexivity].
  - vm_compute. discriminate.
Qed.
Print Assumptions C30_round_trip_v4_refuted.

(** C31 *)
Theorem C31_href_fixed_point :
  forall E s base o, limit_ok E -> idna_ok E -> is_pystr s -> base_parsed (with_validity E false) base ->
    url_new E s base = Ok o -> exists o', url_new E (get_href o) BNone = Ok o' /\ get_href o' = get_href o.
Proof. exact href_fixed. Qed.
Print Assumptions C31_href_fixed_point.
(** here the records differ *)
Example C31_case : exists o o', url_new ascii_env $"http://256.256" BNone = Ok o /\ url_new ascii_env (get_href o) BNone = Ok o' /\
  get_href o = $"http://0.0.1.0/" /\ o <> o'.
Proof. do 2 eexists. split; [vm_compute; reflexivity|]. split; [vm_compute; reflexivity|]. split; [vm_compute; reflexivity|discriminate]. Qed.

(** C32 *)
Theorem C32_base_ignored :
  forall E u base enc, limit_ok E -> idna_ok E -> enc_ok E (normalize_encoding E enc) -> parsed E u -> base_parsed E base ->
    (forall b, base = BStr b -> exists v, snd (parse_url E b BNone enc) = Ok v) ->
    snd (parse_url E (href u) base enc) = snd (parse_url E (href u) BNone enc).
Proof. exact base_independent. Qed.
Print Assumptions C32_base_ignored.
Example C32_case : parsed ascii_env rec_opaque /\ base_parsed ascii_env (BRec rec_http) /\
  hrefs (snd (parse_url ascii_env (href rec_opaque) (BRec rec_http) UTF8)) = Ok $"mailto:a b?q".
Proof. split; [exact rec_opaque_parsed|]. split; [exact rec_http_parsed|vm_compute; reflexivity]. Qed.

(** C33 *)
Theorem C33_href_printable :
  forall E u c, limit_ok E -> idna_ok E -> parsed E u -> In c (href u) ->
    33 <= c <= 126 \/ (c = 32 /\ exists s, path u = POpaque s /\ In c s).
Proof. exact href_printable. Qed.
Print Assumptions C33_href_printable.
Example C33_case : href rec_opaque = $"mailto:a b?q" /\ hrefs (p0 ($"http://h/" ++ [233])) = Ok $"http://h/%C3%A9".
Proof. split; vm_compute; reflexivity. Qed.

(** C34 *)
Theorem C34_whitespace_ignored :
  (forall E s base enc, snd (parse_url E (std_strip_tabs s) base enc) = snd (parse_url E s base enc)) /\
  (forall E a s c base enc, forallb std_c0_space a = true -> forallb std_c0_space c = true ->
     snd (parse_url E (a ++ s ++ c) base enc) = snd (parse_url E s base enc)).
Proof. exact (conj tabs_ignored spaces_ignored). Qed.
Print Assumptions C34_whitespace_ignored.
Example C34_case : hrefs (p0 ([0; 32] ++ $"ht" ++ [10] ++ $"tp:/" ++ [9] ++ $"/h" ++ [13; 32])) = Ok $"http://h/".
Proof. vm_compute. reflexivity. Qed.

(** C35 *)
Theorem C35_scheme_case :
  (forall E s s' t base enc, enc_ok E (normalize_encoding E enc) -> base_parsed E base ->
     std_scheme s = true -> std_lower s = std_lower s' ->
     snd (parse_url E (s ++ $":" ++ t) base enc) = snd (parse_url E (s' ++ $":" ++ t) base enc)) /\
  (forall E s t base enc u, enc_ok E (normalize_encoding E enc) -> base_parsed E base -> std_scheme s = true ->
     snd (parse_url E (s ++ $":" ++ t) base enc) = Ok u -> scheme u = std_lower s).
Proof. exact (conj scheme_case scheme_stored). Qed.
Print Assumptions C35_scheme_case.
Example C35_case : std_scheme $"hTTp" = true /\ hrefs (p0 $"hTTp://h") = Ok $"http://h/" /\ hrefs (p0 $"A+1.b:X") = Ok $"a+1.b:X".
Proof. repeat split; vm_compute; reflexivity. Qed.

(** C36 *)
Theorem C36_clean_segments :
  forall E u l s, parsed E u -> path u = PList l -> In s l -> clean_segment (scheme u) s.
Proof. exact (fun E u l s H => wf_segments (hostval E) u l s (parsed_wf E u H)). Qed.
Print Assumptions C36_clean_segments.
Example C36_case : hrefs (p0 $"http://h/a/%2E%2e/.\b/%2e/c;d/..") = Ok $"http://h/b/" /\ hrefs (p0 $"a://h/x\y/%2e.") = Ok $"a://h/".
Proof. split; vm_compute; reflexivity. Qed.

(** C37 *)
Theorem C37_no_default_port : forall E u p, parsed E u -> port u = Some p -> ~ std_default_port (scheme u) p.
Proof. exact (fun E u p H => wf_default_port (hostval E) u p (parsed_wf E u H)). Qed.
Print Assumptions C37_no_default_port.
Example C37_case : hrefs (p0 $"wss://h:0443/") = Ok $"wss://h/" /\ std_default_port $"wss" 443 /\ port rec_http = Some 8080.
Proof. split; [vm_compute; reflexivity|]. split; [unfold std_default_port; cbn; tauto|reflexivity]. Qed.

(** C38: false for file bases: an empty segment is appended. *)
Theorem C38_empty_reference_refuted :
  exists b l, parsed ascii_env b /\ path b = PList l /\
    snd (parse_url ascii_env [] (BRec b) UTF8) = Ok (set_path (PList (l ++ [[]])) (set_fragment None b)).
Proof. exists rec_file, [$"C:"; $"x"; $"y"]. split; [exact rec_file_parsed|]. split; vm_compute; reflexivity. Qed.
Print Assumptions C38_empty_reference_refuted.
Theorem C38_empty_reference_partial :
  (forall E b enc l, parsed E b -> path b = PList l -> scheme b <> $"file" ->
     snd (parse_url E [] (BRec b) enc) = Ok (set_fragment None b)) /\
  (forall E b enc l, parsed E b -> path b = PList l -> scheme b = $"file" ->
     snd (parse_url E [] (BRec b) enc) = Ok (set_path (PList (l ++ [[]])) (set_fragment None b))).
Proof. exact (conj empty_reference empty_reference_file). Qed.
Print Assumptions C38_empty_reference_partial.
Example C38_case : parsed ascii_env rec_http /\ hrefs (snd (parse_url ascii_env [] (BRec rec_http) UTF8)) = Ok $"http://us:p%40w@h:8080/a/b?q".
Proof. split; [exact rec_http_parsed|vm_compute; reflexivity]. Qed.

(** C39: [std_seen]: without trailing C0 controls and spaces, tabs and newlines *)
Theorem C39_hash_reference :
  forall E b enc f, is_pystr f -> parsed E b ->
    snd (parse_url E ($"#" ++ f) (BRec b) enc) = Ok (set_fragment (Some (std_percent_encode fragment_set false (std_seen f))) b).
Proof. exact hash_reference. Qed.
Print Assumptions C39_hash_reference.
Example C39_case : hrefs (snd (parse_url ascii_env ($"#x" ++ [9] ++ $" y? ") (BRec rec_opaque) UTF8)) = Ok $"mailto:a b?q#x%20y?".
Proof. vm_compute. reflexivity. Qed.

(** C40 *)
Theorem C40_query_reference :
  forall E b enc q, enc_ok E (normalize_encoding E enc) -> is_pystr q -> parsed E b -> has_opaque_path b = false -> ~ In 35 q ->
    exists x, snd (parse_url E ($"?" ++ q) (BRec b) enc) = Ok (set_fragment None (set_query (Some x) b)) /\
      (normalize_encoding E enc = $"utf-8" \/ ~ std_special (scheme b) \/ scheme b = $"ws" \/ scheme b = $"wss" ->
         x = std_percent_encode (std_query_set (scheme b)) false (std_seen q)) /\
      string_percent_encode (enc_of E (query_encoding b (normalize_encoding E enc))) (std_seen q)
        (if special_scheme (scheme b) then SAFE_SPECIAL_QUERY else SAFE_QUERY) false = Some x.
Proof. exact query_reference. Qed.
Print Assumptions C40_query_reference.
Example C40_case : has_opaque_path rec_http = false /\
  hrefs (snd (parse_url ascii_env ($"?z'" ++ [233]) (BRec rec_http) UTF8)) = Ok $"http://us:p%40w@h:8080/a/b?z%27%C3%A9" /\
  hrefs (snd (parse_url ascii_env ($"?z'" ++ [233]) (BRec rec_http) $"latin-1")) = Ok $"http://us:p%40w@h:8080/a/b?z%27%E9".
Proof. repeat split; vm_compute; reflexivity. Qed.

(** C44 *)
Theorem C44_encoding_only_query :
  forall E s base e1 e2, enc_ok E (normalize_encoding E e1) -> enc_ok E (normalize_encoding E e2) -> is_pystr s -> base_parsed E base ->
    match snd (parse_url E s base e1), snd (parse_url E s base e2) with
    | Ok u, Ok v => u = set_query (query u) v /\ (~ std_special (scheme v) \/ scheme v = $"ws" \/ scheme v = $"wss" -> u = v)
    | Err e, Err e' => e = e'
    | _, _ => False
    end.
Proof. exact encoding_query. Qed.
Print Assumptions C44_encoding_only_query.
Example C44_case : enc_ok ascii_env (normalize_encoding ascii_env $"Latin-1") /\
  hrefs (snd (parse_url ascii_env ($"http://h/" ++ [233] ++ $"?" ++ [233]) BNone $"Latin-1")) = Ok $"http://h/%C3%A9?%E9" /\
  hrefs (snd (parse_url ascii_env ($"ws://h/" ++ [233] ++ $"?" ++ [233]) BNone $"Latin-1")) = Ok $"ws://h/%C3%A9?%C3%A9".
Proof. split; [right; exact latin1_ok|]. split; vm_compute; reflexivity. Qed.

(** C45. The first part is for special schemes. For the others: a backslash stays
    in the user name and password, makes the host part fail, and stays in a path
    segment. *)
Theorem C45_backslash :
  (forall E s t base enc, enc_ok E (normalize_encoding E enc) -> base_parsed E base ->
     std_scheme s = true -> std_special (std_lower s) ->
     snd (parse_url E (s ++ $":" ++ slashed t) base enc) = snd (parse_url E (s ++ $":" ++ t) base enc)) /\
  (forall E s ui hp r base enc u, enc_ok E (normalize_encoding E enc) -> base_parsed E base ->
     std_scheme s = true -> ~ std_special (std_lower s) ->
     is_pystr ui -> Forall std_ns_char ui -> Forall std_ns_char hp -> ~ In 64 hp -> std_ends_head r ->
     snd (parse_url E (s ++ $"://" ++ ui ++ $"@" ++ hp ++ r) base enc) = Ok u ->
     username u = std_percent_encode userinfo_set false (fst (std_upto 58 ui)) /\
     password u = std_percent_encode userinfo_set false (snd (std_upto 58 ui))) /\
  (forall E s a hp r base enc, enc_ok E (normalize_encoding E enc) -> base_parsed E base ->
     std_scheme s = true -> ~ std_special (std_lower s) ->
     a = [] \/ (exists ui, a = ui ++ $"@" /\ Forall std_ns_char ui) ->
     Forall std_ns_char hp -> ~ In 64 hp -> std_ends_head r -> In 92 hp ->
     exists e, snd (parse_url E (s ++ $"://" ++ a ++ hp ++ r) base enc) = Err e) /\
  (forall E s auth ps r base enc u, enc_ok E (normalize_encoding E enc) -> base_parsed E base ->
     std_scheme s = true -> std_lower s <> $"file" -> Forall std_auth_char auth ->
     (std_special (std_lower s) -> auth <> []) -> ps <> [] ->
     Forall (Forall (std_seg_char (std_lower s))) ps -> std_qf_tail r ->
     Forall (fun p => is_pystr p /\ std_single_dot p = false /\ std_double_dot p = false) ps ->
     snd (parse_url E (s ++ $"://" ++ auth ++ $"/" ++ std_join ps ++ r) base enc) = Ok u ->
     path u = PList (map (std_percent_encode path_set false) ps)).
Proof. exact (conj backslash_special (conj backslash_userinfo (conj backslash_host segments_kept))). Qed.
Print Assumptions C45_backslash.
Example C45_case : slashed $"\\h\a?x\y" = $"//h/a?x\y" /\ hrefs (p0 $"http:\\h\a?x\y") = Ok $"http://h/a?x\y" /\
  hrefs (p0 $"a://u\:p@h/x\y") = Ok $"a://u%5C:p@h/x\y" /\ p0 $"a://h\x/" = Err EHostParse.
Proof. repeat split; vm_compute; reflexivity. Qed.

(** C72. [std_unparse_tail] is urllib.parse.urlunparse on path, params, query and
    fragment: empty components vanish with their delimiter. *)
Theorem C72_urlparse_components :
  (forall E s base enc af r, urlparse E s base enc af = Ok r ->
     exists u, snd (parse_url (with_validity E false) s (match base with Some b => BStr b | None => BNone end) enc) = Ok u /\
       r = to_parse_result u af) /\
  (forall E u, parsed E u -> let r := to_parse_result u true in
     (uhost u = None -> pr_netloc r = []) /\
     href u = pr_scheme r ++ $":" ++
       match uhost u with
       | Some _ => $"//" ++ pr_netloc r
       | None => match path u with PList ([] :: _ :: _) => $"/." | _ => [] end
       end ++ serialize_path u ++ std_opt_delim 63 (query u) ++ std_opt_delim 35 (fragment u)) /\
  (forall u, let r := to_parse_result u true in
     ~ In 59 (pr_path r) /\
     (serialize_path u = pr_path r ++ 59 :: pr_params r \/ (serialize_path u = pr_path r /\ pr_params r = [])) /\
     pr_query r = match query u with Some q => q | None => [] end /\
     pr_fragment r = match fragment u with Some f => f | None => [] end) /\
  (forall u, pr_scheme (to_parse_result u false) = pr_scheme (to_parse_result u true) /\
     pr_netloc (to_parse_result u false) = pr_netloc (to_parse_result u true) /\
     pr_fragment (to_parse_result u false) = [] /\
     std_unparse_tail (to_parse_result u false) = std_unparse_tail (to_parse_result u true)).
Proof. exact (conj urlparse_record (conj (fun E u H => pr_netloc_href (hostval E) u (parsed_wf E u H)) (conj pr_components pr_variants))). Qed.
Print Assumptions C72_urlparse_components.
Example C72_case :
  urlparse ascii_env $"http://u:p@H:81/a;b;c?d#e" None UTF8 true = Ok (mkpr $"http" $"u:p@h:81" $"/a" $"b;c" $"d" $"e") /\
  urlparse ascii_env $"http://u:p@H:81/a;b;c#e" None UTF8 false = Ok (mkpr $"http" $"u:p@h:81" $"/a" $"b;c#e" [] []).
Proof. split; vm_compute; reflexivity. Qed.

(** C73 *)
Theorem C73_drive_letter_kept :
  forall E enc b d l t u, parsed E b -> scheme b = $"file" -> path b = PList (d :: l) -> std_drive_letter d = true ->
    (exists t', t = 46 :: t' \/ t = 37 :: t') -> snd (parse_url E t (BRec b) enc) = Ok u ->
    (exists l', path u = PList (d :: l')) /\ uhost u = uhost b.
Proof. exact drive_kept. Qed.
Print Assumptions C73_drive_letter_kept.
Example C73_case : parsed ascii_env rec_file /\ hrefs (snd (parse_url ascii_env $"../../..//%2e%2e/../z" (BRec rec_file) UTF8)) = Ok $"file:///C:/z".
Proof. split; [exact rec_file_parsed|vm_compute; reflexivity]. Qed.

(** C74. [a] are leading segments that leave nothing of themselves. *)
Theorem C74_no_climbing :
  (forall E s auth a rest base enc, enc_ok E (normalize_encoding E enc) -> base_parsed E base -> std_scheme s = true ->
     Forall std_auth_char auth -> (std_special (std_lower s) -> std_lower s <> $"file" -> auth <> []) ->
     Forall (Forall std_auth_char) a -> Forall (fun p => is_pystr p) a ->
     (std_lower s <> $"file" /\ net_depth 0 a = 0%nat) \/ Forall (fun p => std_double_dot p = true) a ->
     snd (parse_url E (s ++ $"://" ++ auth ++ $"/" ++ flat_map (fun p => p ++ [47]) a ++ rest) base enc) =
     snd (parse_url E (s ++ $"://" ++ auth ++ $"/" ++ rest) base enc)) /\
  (forall E s auth ps r base enc u, enc_ok E (normalize_encoding E enc) -> base_parsed E base -> std_scheme s = true ->
     std_lower s <> $"file" -> Forall std_auth_char auth -> (std_special (std_lower s) -> auth <> []) -> ps <> [] ->
     Forall (fun p => is_pystr p) ps -> Forall (Forall (std_seg_char (std_lower s))) ps -> std_qf_tail r ->
     snd (parse_url E (s ++ $"://" ++ auth ++ $"/" ++ std_join ps ++ r) base enc) = Ok u ->
     exists l, path u = PList l /\ forall x, In x l -> x = [] \/ exists p, In p ps /\ x = std_percent_encode path_set false p).
Proof. exact (conj excess_dropped segments_from). Qed.
Print Assumptions C74_no_climbing.
Example C74_case : net_depth 0 [$"x"; $".."; $"."; $".."; $"%2e."] = 0%nat /\
  hrefs (p0 $"http://h/x/.././../%2e./y") = Ok $"http://h/y".
Proof. split; vm_compute; reflexivity. Qed.
