(** Property theorems C41, C77 and C78: the parser against the URL Standard's basic
    URL parser, the host parser against its host parser, and both together. The
    standard's machine is in SpecParser.v. *)
From Coq Require Import Ascii String.
From Coq Require Import NArith ZArith Bool Arith Lia List.
From Verif Require Import PyStr PyInt Codec Env HostModel UrlRecord Parser SpecText SpecHost SpecUrl SpecParser.
From Verif Require Import Lemmas QuoteProofs IPv4Proofs HostProofs StandardProofs SpecPyInt IntGrammar IPv6Grammar HostStandard HostExact HostExactBase ExampleEnv SpecText SpecHost SpecUrl.
Import ListNotations.
Open Scope N_scope.

(** C41 is false: with a file base and an input of nothing or only "file:", the code
    adds an empty segment to the path of the base. [code_host] is the code's host
    parser, so both sides use the same one. *)
Definition file_base : urlrec := mkurl $"file" [] [] (Some (HStr [])) None (PList [$"a"; $"b"]) None None.
Theorem C41_conforms_refuted :
  snd (parse_url ascii_env [] (BRec file_base) UTF8) = Ok (set_path (PList [$"a"; $"b"; []]) file_base) /\
  (forall r, std_url_parse (code_host ascii_env) [] (BRec file_base) r <-> r = Some file_base).
Proof.
  split; [vm_compute; reflexivity|].
  assert (A : std_url_parse (code_host ascii_env) [] (BRec file_base) (Some file_base)).
  { apply sup_rec. apply (std_exec_parse 20). vm_compute. reflexivity. }
  intros r. split; [|intros ->; exact A]. inversion 1 as [| | |]; subst. inversion A; subst. eapply std_runs_det; eassumption.
Qed.
Print Assumptions C41_conforms_refuted.

(** Also false beyond the int/str digit limit: a port of 641 zeros (port 0). *)
Theorem C41_limit_refuted :
  exists s, snd (parse_url low_env s BNone UTF8) = Err EValue /\
    forall r, std_url_parse (code_host low_env) s BNone r <-> r = Some (mkurl $"http" [] [] (Some (HStr $"h")) (Some 0) (PList [[]]) None None).
Proof.
  exists ($"http://h:" ++ repeat 48 641). split; [vm_compute; reflexivity|].
  assert (A : std_url_parse (code_host low_env) ($"http://h:" ++ repeat 48 641) BNone (Some (mkurl $"http" [] [] (Some (HStr $"h")) (Some 0) (PList [[]]) None None))).
  { apply sup_none. apply (std_exec_parse 1400). vm_compute. reflexivity. }
  intros r. split; [|intros ->; exact A]. inversion 1 as [| | |]; subst. inversion A; subst. eapply std_runs_det; eassumption.
Qed.
Print Assumptions C41_limit_refuted.

(** What holds: the machine of the standard has exactly the outcome of the code
    ([None] is failure), which in particular means that it stops.
    Missing: file bases with nothing or only "file:" in the input ([not_file_only];
    the outcome there is in C41_file_only), runs that read a port with more digits than
    the int/str limit ([arg_port_read]; the outcome there is in C41_long_port), strings
    with surrogates (the standard does not define the parser on them) and legacy
    encodings. *)
Theorem C41_conforms_partial :
  forall E s base enc, normalize_encoding E enc = $"utf-8" -> scalar_string s -> good_base_arg None base ->
    (forall b, arg_port_read (code_host E) base s b -> short_for (int_limit E) b) -> not_file_only (code_host E) base s ->
    forall r, std_url_parse (code_host E) s base r <-> r = outcome (snd (parse_url E s base enc)).
Proof. exact conforms_url_ports. Qed.
Print Assumptions C41_conforms_partial.
(** a text that is not longer than the limit has no such port *)
Theorem C41_short :
  forall E s base enc, normalize_encoding E enc = $"utf-8" -> scalar_string s -> short_for (int_limit E) s ->
    good_base_arg (int_limit E) base -> not_file_only (code_host E) base s ->
    forall r, std_url_parse (code_host E) s base r <-> r = outcome (snd (parse_url E s base enc)).
Proof. exact conforms_url. Qed.
Print Assumptions C41_short.
(** The remaining inputs for file bases: exactly one empty segment too many. *)
Theorem C41_file_only :
  forall E s b enc, normalize_encoding E enc = $"utf-8" -> scalar_string s ->
    std_good_base (Some b) -> file_only (Some b) s = true ->
    exists v, std_basic_parse (code_host E) (Some b) s (Some v) /\ snd (parse_new E s (Some b) enc) = Ok (std_append [] v).
Proof. exact conforms_file_only. Qed.
Print Assumptions C41_file_only.
(** The remaining inputs with ports: ValueError. *)
Theorem C41_long_port :
  forall E s base enc b, normalize_encoding E enc = $"utf-8" -> scalar_string s -> good_base_arg None base ->
    arg_port_read (code_host E) base s b -> ~ short_for (int_limit E) b -> snd (parse_url E s base enc) = Err EValue.
Proof. exact long_port_raises. Qed.
Print Assumptions C41_long_port.
(** the run of C41_limit_refuted reads such a port *)
Example C41_port_case : arg_port_read (code_host low_env) BNone ($"http://h:" ++ repeat 48 641) (repeat 48 641) /\ ~ short_for (int_limit low_env) (repeat 48 641).
Proof. split; [apply (reads_computed 1400); vm_compute; reflexivity|]. vm_compute. auto. Qed.

(** a run of the standard's machine over most states, and the code on the same input *)
Definition demo : str := $" HTTP://us:p@w@Ex%41mple.com:081\a/./b/../c d?q='#f ".
Definition demo_url : urlrec :=
  mkurl $"http" $"us" $"p%40w" (Some (HStr $"example.com")) (Some 81) (PList [$"a"; $"c%20d"]) (Some $"q=%27") (Some $"f").
Example C41_case : std_url_parse (code_host ascii_env) demo BNone (Some demo_url) /\
  snd (parse_url ascii_env demo BNone UTF8) = Ok demo_url /\ normalize_encoding ascii_env UTF8 = $"utf-8" /\
  short_for (int_limit ascii_env) demo /\ scalar_string demo.
Proof.
  split; [apply sup_none, (std_exec_parse 200); vm_compute; reflexivity|]. split; [vm_compute; reflexivity|]. split; [vm_compute; reflexivity|].
  split; [apply N.leb_le; vm_compute; reflexivity|].
  assert (F : forallb (fun c => c <? 128) demo = true) by (vm_compute; reflexivity). rewrite forallb_forall in F.
  split; apply Forall_forall; intros c Hc; specialize (F c Hc); apply N.ltb_lt in F; unfold surrogate; lia.
Qed.
(** a relative reference, a failure, and the deviating case *)
Example C41_relative :
  std_basic_parse (code_host ascii_env) (Some demo_url) $"../x?y" (Some (set_fragment None (set_query (Some $"y") (set_path (PList [$"x"]) demo_url)))) /\
  std_basic_parse (code_host ascii_env) (Some demo_url) $"//h:x/" None /\ file_only (Some file_base) $" FILE:" = true /\
  snd (parse_new ascii_env $" FILE:" (Some file_base) UTF8) = Ok (std_append [] file_base).
Proof.
  split; [apply (std_exec_parse 100); vm_compute; reflexivity|]. split; [apply (std_exec_parse 100); vm_compute; reflexivity|].
  split; vm_compute; reflexivity.
Qed.

(** C77 is false: int() accepts '_' between digits, so the host 1_0 becomes an IPv4 address. *)
Theorem C77_host_refuted :
  code_host ascii_env $"1_0" false = Some (HIPv4 10) /\ std_host_parse (code_to_ascii ascii_env) $"1_0" false = Some (HStr $"1_0").
Proof. split; vm_compute; reflexivity. Qed.
Print Assumptions C77_host_refuted.
(** Exactly where it holds. [odd_host]: the hosts in the deviations of C15, C16 and C21
    (a bracketed IPv6 address that is one of the texts of C21; a domain whose last label
    only int() reads as a number; a domain that ends in a number and that only the code
    reads as an IPv4 address). [code_to_ascii] is the domain-to-ASCII operation of the
    model. The empty host is only passed as an opaque one. *)
Theorem C77_host_partial :
  forall E h o, limit_ok E -> scalar_string h -> (h = [] -> o = true) ->
    (code_host E h o = std_host_parse (code_to_ascii E) h o <-> ~ odd_host E h o).
Proof. exact host_same. Qed.
Print Assumptions C77_host_partial.
Example C77_case :
  std_host_parse (code_to_ascii ascii_env) $"Ex%41mple.com" false = Some (HStr $"example.com") /\
  std_host_parse (code_to_ascii ascii_env) $"0x7f.1" false = Some (HIPv4 2130706433) /\
  std_host_parse (code_to_ascii ascii_env) $"a b" false = None /\ std_host_parse (code_to_ascii ascii_env) $"a<b" true = None /\
  std_host_parse (code_to_ascii ascii_env) $"[1::2]" true = Some (HIPv6 [1; 0; 0; 0; 0; 0; 0; 2]) /\
  std_host_parse (code_to_ascii ascii_env) $"[1::2" true = None /\
  regular_host ascii_env $"Ex%41mple.com" false /\ regular_host ascii_env $"0x7f.1" false /\ regular_host ascii_env $"[1::2]" true.
Proof.
  do 6 (split; [vm_compute; reflexivity|]). split; [|split].
  - apply bare_regular; [discriminate|]. intros d H. assert (d = $"example.com") by (vm_compute in H; now injection H as <-). subst d. split; [apply not_odd; vm_compute; reflexivity|].
    intros Q. vm_compute in Q. discriminate Q.
  - apply bare_regular; [discriminate|]. intros d H. assert (d = $"0x7f.1") by (vm_compute in H; now injection H as <-). subst d.
    split; [apply not_odd; vm_compute; reflexivity|]. intros _. split.
    + change (Forall (fun p => ~ odd_number ascii_env p) [$"0x7f"; $"1"]). repeat constructor; apply not_odd; vm_compute; reflexivity.
    + intros ns HH. vm_compute in HH. injection HH as <-. repeat constructor. discriminate.
  - intros [_ O]. revert O. apply (ipv6_same ascii_env $"1::2"); [exact ascii_env_limit|vm_compute; reflexivity].
Qed.

(** C78 is false for the same reason. *)
Theorem C78_whole_refuted :
  exists u v, snd (parse_url ascii_env $"http://1_0/" BNone UTF8) = Ok u /\ href u = $"http://0.0.0.10/" /\
    std_url_parse (std_host_parse (code_to_ascii ascii_env)) $"http://1_0/" BNone (Some v) /\ href v = $"http://1_0/".
Proof.
  exists (mkurl $"http" [] [] (Some (HIPv4 10)) None (PList [[]]) None None), (mkurl $"http" [] [] (Some (HStr $"1_0")) None (PList [[]]) None None).
  split; [vm_compute; reflexivity|]. split; [vm_compute; reflexivity|]. split; [|vm_compute; reflexivity].
  apply sup_none, (std_exec_parse 100). vm_compute. reflexivity.
Qed.
Print Assumptions C78_whole_refuted.
(** What holds: the standard's machine with the standard's host parser has exactly
    the outcome of the code when the host that the run parses (if it gets that far) is
    regular. Missing besides that: what is missing from C41. *)
Theorem C78_whole_partial :
  forall E s base enc, limit_ok E -> normalize_encoding E enc = $"utf-8" -> scalar_string s -> good_base_arg None base ->
    (forall b, arg_port_read (std_host_parse (code_to_ascii E)) base s b -> short_for (int_limit E) b) ->
    not_file_only (std_host_parse (code_to_ascii E)) base s ->
    arg_hosts_satisfy (regular_host E) (std_host_parse (code_to_ascii E)) base s ->
    forall r, std_url_parse (std_host_parse (code_to_ascii E)) s base r <-> r = outcome (snd (parse_url E s base enc)).
Proof. exact conforms_whole_ports. Qed.
Print Assumptions C78_whole_partial.
Example C78_case : arg_hosts_satisfy (regular_host ascii_env) (std_host_parse (code_to_ascii ascii_env)) BNone demo /\
  std_url_parse (std_host_parse (code_to_ascii ascii_env)) demo BNone (Some demo_url).
Proof.
  split; [|apply sup_none, (std_exec_parse 200); vm_compute; reflexivity].
  apply (hosts_computed 200 _ _ _ _ [($"Ex%41mple.com", false)]); [vm_compute; reflexivity|].
  intros h o [H|[]]. injection H as <- <-. exact (proj1 (proj2 (proj2 (proj2 (proj2 (proj2 (proj2 C77_case))))))).
Qed.
(** The condition on the host is exact, for a base that is a record or absent: the
    outcomes are equal if and only if the host is regular or both fail. *)
Theorem C78_whole_exact :
  forall E s b enc, limit_ok E -> normalize_encoding E enc = $"utf-8" -> scalar_string s -> good_base_arg None (opt_base b) ->
    (forall p, std_port_read (code_host E) b s p -> short_for (int_limit E) p) -> not_file_only (code_host E) (opt_base b) s ->
    ((forall r, std_url_parse (std_host_parse (code_to_ascii E)) s (opt_base b) r <-> r = outcome (snd (parse_url E s (opt_base b) enc))) <->
     hosts_satisfy (regular_host E) (std_host_parse (code_to_ascii E)) b s \/
     (std_url_parse (std_host_parse (code_to_ascii E)) s (opt_base b) None /\ outcome (snd (parse_url E s (opt_base b) enc)) = None)).
Proof. exact whole_exact. Qed.
Print Assumptions C78_whole_exact.
(** an odd host in an input where both fail, because of the port *)
Example C78_both_fail :
  std_host_of (std_host_parse (code_to_ascii ascii_env)) None $"http://1_0:99999/" $"1_0" false /\
  (exists h, code_host ascii_env $"1_0" false = Some h /\ std_host_parse (code_to_ascii ascii_env) $"1_0" false <> Some h) /\
  std_url_parse (std_host_parse (code_to_ascii ascii_env)) $"http://1_0:99999/" BNone None /\
  outcome (snd (parse_url ascii_env $"http://1_0:99999/" BNone UTF8)) = None.
Proof.
  split.
  - apply (asks_list_in 100 _ _ _ _ [($"1_0", false)]); [vm_compute; reflexivity|now left].
  - split; [eexists; split; [vm_compute; reflexivity|vm_compute; discriminate]|].
    split; [apply sup_none, (std_exec_parse 100); vm_compute; reflexivity|vm_compute; reflexivity].
Qed.
(** The same for a base string with a regular host. (An odd host in the base can be replaced by
    the input, so the condition on the host of the base is not exact.) *)
Theorem C78_whole_exact_string :
  forall E s t enc, limit_ok E -> normalize_encoding E enc = $"utf-8" -> scalar_string s -> scalar_string t ->
    (forall p, arg_port_read (code_host E) (BStr t) s p -> short_for (int_limit E) p) -> not_file_only (code_host E) (BStr t) s ->
    hosts_satisfy (regular_host E) (std_host_parse (code_to_ascii E)) None t ->
    ((forall r, std_url_parse (std_host_parse (code_to_ascii E)) s (BStr t) r <-> r = outcome (snd (parse_url E s (BStr t) enc))) <->
     (forall b, std_basic_parse (std_host_parse (code_to_ascii E)) None t (Some b) ->
        hosts_satisfy (regular_host E) (std_host_parse (code_to_ascii E)) (Some b) s) \/
     (std_url_parse (std_host_parse (code_to_ascii E)) s (BStr t) None /\ outcome (snd (parse_url E s (BStr t) enc)) = None)).
Proof. exact whole_exact_string. Qed.
Print Assumptions C78_whole_exact_string.
(** a base with a regular host and a reference with an odd one: the outcomes differ *)
Example C78_string_case :
  hosts_satisfy (regular_host ascii_env) (std_host_parse (code_to_ascii ascii_env)) None $"http://Ex%41mple.com/a" /\
  (exists u, std_url_parse (std_host_parse (code_to_ascii ascii_env)) $"//1_0/x" (BStr $"http://Ex%41mple.com/a") (Some u) /\ href u = $"http://1_0/x") /\
  exists v, snd (parse_url ascii_env $"//1_0/x" (BStr $"http://Ex%41mple.com/a") UTF8) = Ok v /\ href v = $"http://0.0.0.10/x".
Proof.
  split; [|split].
  - apply (hosts_computed 200 _ _ _ _ [($"Ex%41mple.com", false)]); [vm_compute; reflexivity|].
    intros h o [H|[]]. injection H as <- <-. exact (proj1 (proj2 (proj2 (proj2 (proj2 (proj2 (proj2 C77_case))))))).
  - exists (mkurl $"http" [] [] (Some (HStr $"1_0")) None (PList [$"x"]) None None). split; [|vm_compute; reflexivity].
    apply (sup_str _ _ _ (mkurl $"http" [] [] (Some (HStr $"example.com")) None (PList [$"a"]) None None));
      apply (std_exec_parse 100); vm_compute; reflexivity.
  - exists (mkurl $"http" [] [] (Some (HIPv4 10)) None (PList [$"x"]) None None). split; vm_compute; reflexivity.
Qed.
