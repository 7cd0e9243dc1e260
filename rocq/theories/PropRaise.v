(** Property theorem C126: exactly when ValueError escapes from the parser. *)
From Coq Require Import Ascii String.
From Coq Require Import NArith ZArith Bool Arith Lia List.
From Verif Require Import PyStr PyInt Codec Env HostModel UrlRecord Parser SearchParams UrlApi SpecText SpecHost SpecUrl SpecParser SpecApi SpecSetters.
From Verif Require Import Lemmas QuoteProofs PyIntProofs IPv4Proofs HostProofs StandardProofs SpecPyInt IntGrammar SpecIPv6 IPv6Grammar HostStandard RaiseProofs SetterRaise ExampleEnv SpecText SpecHost SpecUrl SpecApi SpecSetters SpecWhole SpecRaise.
Import ListNotations.
Open Scope N_scope.

(** The two address parsers and the host parser, against the texts of SpecRaise.v *)
Theorem C126_hosts :
  (forall E s, limit_ok E -> snd (ipv4_parse E s) = Err EValue <-> v4_value_error (int_limit E) (uni_decimal E) (uni_space E) (has_validity E) s) /\
  (forall E s, limit_ok E -> snd (ipv6_parse E s) = Err EValue <-> v6_value_error (int_limit E) s) /\
  (forall E h o, limit_ok E -> scalar_string h ->
     (snd (host_parse E h o) = Err EValue <->
      host_value_error (int_limit E) (uni_decimal E) (uni_space E) (has_validity E) (code_to_ascii E) h o)).
Proof. exact (conj ipv4_raise (conj (fun E s HE => ipv6_raise E HE s) (fun E h o HE => host_raise E HE h o))). Qed.
Print Assumptions C126_hosts.

(** The URL parser: the standard's machine reads a port with too many digits or asks its
    host parser for such a host, in the base or in the input. [code_value_error E] is the
    right side of the third conjunct above. *)
Theorem C126_parser :
  forall E s base enc, limit_ok E -> normalize_encoding E enc = $"utf-8" -> scalar_string s -> good_base_arg None base ->
    (snd (parse_url E s base enc) = Err EValue <->
     (exists b, arg_port_read (code_host E) base s b /\ ~ short_for (int_limit E) b) \/
     (exists h o, arg_host_of (code_host E) base s h o /\ code_value_error E h o)).
Proof. exact url_value_error. Qed.
Print Assumptions C126_parser.
(** can_parse always uses a ValidityState *)
Theorem C126_can_parse :
  forall E s base, limit_ok E -> scalar_string s -> good_base_arg None base ->
    (can_parse E s base = Err EValue <->
     (exists b, arg_port_read (code_host (with_validity E true)) base s b /\ ~ short_for (int_limit E) b) \/
     (exists h o, arg_host_of (code_host (with_validity E true)) base s h o /\ code_value_error (with_validity E true) h o)).
Proof. exact can_parse_value_error. Qed.
Print Assumptions C126_can_parse.

(** The setters of a URL object, against the port texts and hosts of the standard's setters
    (SpecWhole.v) *)
Theorem C126_setters :
  forall E s o, limit_ok E -> scalar_string (text_of s) ->
    (snd (set_attr E s o) = Err EValue <->
     (exists b, setter_reads (code_host (with_validity E false)) s (o_url o) b /\ ~ short_for (int_limit E) b) \/
     (exists h op, setter_asks (code_host (with_validity E false)) s (o_url o) h op /\ code_value_error (with_validity E false) h op)).
Proof. exact setter_value_error. Qed.
Print Assumptions C126_setters.
(** the port setter stops at the first character that is not a digit *)
Example C126_port : setter_reads (code_host (with_validity low_env false)) (SetPort (repeat 48 700 ++ $"8/9")) (set_host (Some (HStr $"h")) (set_scheme $"http" new_url)) (repeat 48 700 ++ $"8") /\
  ~ short_for (int_limit low_env) (repeat 48 700 ++ $"8") /\
  snd (set_attr low_env (SetPort (repeat 48 700 ++ $"8/9")) (mkobj (set_host (Some (HStr $"h")) (set_scheme $"http" new_url)) [])) = Err EValue.
Proof.
  assert (NS : ~ short_for (int_limit low_env) (repeat 48 700 ++ $"8")) by (intros H; vm_compute in H; now apply H).
  assert (NA : ~ std_no_authority (set_host (Some (HStr $"h")) (set_scheme $"http" new_url))) by (intros [H|[H|H]]; vm_compute in H; discriminate H).
  assert (C : snd (set_attr low_env (SetPort (repeat 48 700 ++ $"8/9")) (mkobj (set_host (Some (HStr $"h")) (set_scheme $"http" new_url)) [])) = Err EValue) by (vm_compute; reflexivity).
  split; [|split; [exact NS|exact C]]. split; [exact NA|].
  apply (oreads_list_sound 800). assert (L : oreads_list 800 (code_host (with_validity low_env false)) false (std_strip_tabs (repeat 48 700 ++ $"8/9"))
    (mkcfg S_port 0 [] false false false (set_host (Some (HStr $"h")) (set_scheme $"http" new_url))) = [repeat 48 700 ++ $"8"]) by (vm_compute; reflexivity). rewrite L. now left.
Qed.

(** an IPv6 address with such a part, although it is wrong anyway *)
Example C126_ipv6 : v6_value_error (Some 640) ($"1::" ++ (repeat 49 641 ++ $".2") ++ $":x").
Proof.
  exists $"1::", (repeat 49 641 ++ $".2"), $":x", 2%nat. split; [reflexivity|]. split.
  { apply begin_item. apply (lead_item false false $"1" [1] $":" 1); [apply item_hex; split; [cbn; lia|reflexivity]|]. apply lead_short. constructor. }
  split; [lia|]. split; [|right; exists $"x"; reflexivity]. exists [repeat 49 641; $"2"]. split; [reflexivity|]. split; [cbn [length]; lia|]. split.
  - constructor; [|constructor; [|constructor]]; (split; [discriminate|split; [vm_compute; reflexivity|]]); intros t H; discriminate H.
  - apply Exists_cons_hd. intros H. vm_compute in H. now apply H.
Qed.
(** can_parse raises, but the constructor accepts *)
Definition wide : str := $"http://0x" ++ repeat 102 600 ++ $".256/".
Example C126_wide : can_parse low_env wide BNone = Err EValue /\ (exists o, url_new low_env wide BNone = Ok o) /\
  exists h o, arg_host_of (code_host (with_validity low_env true)) BNone wide h o /\ code_value_error (with_validity low_env true) h o.
Proof.
  assert (L : limit_ok low_env) by (apply N.leb_le; vm_compute; reflexivity).
  assert (C : can_parse low_env wide BNone = Err EValue) by (vm_compute; reflexivity).
  assert (K : match url_new low_env wide BNone with Ok _ => true | Err _ => false end = true) by (vm_compute; reflexivity).
  split; [exact C|]. split; [destruct (url_new low_env wide BNone) as [o|e] eqn:Q; [eauto|]; exfalso; discriminate K|].
  assert (W : scalar_string wide).
  { assert (F : forallb (fun c => c <? 128) wide = true) by (vm_compute; reflexivity). rewrite forallb_forall in F.
    split; apply Forall_forall; intros c Hc; specialize (F c Hc); apply N.ltb_lt in F; unfold surrogate; lia. }
  apply (can_parse_value_error low_env wide BNone L W I) in C as [(b & R & _)|C]; [|exact C]. exfalso.
  apply (reads_list_complete 1400) in R; [|vm_compute; reflexivity].
  assert (Z : reads_list 1400 (code_host (with_validity low_env true)) None (std_input wide) (mkcfg S_scheme_start 0 [] false false false new_url) = []) by (vm_compute; reflexivity).
  rewrite Z in R. exact R.
Qed.
