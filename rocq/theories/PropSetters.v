(** Property theorems C79 and C85: the setters against the setters of the URL Standard
    (SpecSetters.v). *)
From Coq Require Import Ascii String.
From Coq Require Import NArith ZArith Bool Arith Lia List.
From Verif Require Import PyStr PyInt Codec Env HostModel UrlRecord Parser SearchParams UrlApi SpecText SpecHost SpecUrl SpecParser SpecApi SpecSetters.
From Verif Require Import IPv4Proofs StandardProofs HostStandard SetterStandard SpecPyInt IntGrammar SpecWhole SetterWhole SetterExact ExampleEnv SpecApi SpecUrl SpecParser SpecSetters.
Import ListNotations.
Open Scope N_scope.

Definition obj1 (s : list N) : urlobj := match url_new ascii_env s BNone with Ok o => o | Err _ => mkobj new_url [] end.
Ltac pys := repeat constructor; discriminate.
Ltac reach1 := match goal with |- reached _ (obj1 ?s) => apply (reached_new ascii_env s); [pys|vm_compute; reflexivity] end.
(** the host parser of the code, as URL objects call it (without a ValidityState) *)
Notation api_host E := (code_host (with_validity E false)).

(** C79 is false for port 0: the host setter empties the host and the protocol
    setter goes to "file", where the standard leaves the record alone. *)
Theorem C79_setters_refuted :
  (let u := o_url (obj1 $"a://h:0/p") in reached ascii_env (obj1 $"a://h:0/p") /\
   o_url (fst (set_attr ascii_env (SetHost []) (obj1 $"a://h:0/p"))) = set_host (Some (HStr [])) u /\
   forall v b, std_set (api_host ascii_env) (SetHost []) u v b -> v = u /\ uhost u = Some (HStr $"h")) /\
  (let u := o_url (obj1 $"http://h:0/p") in reached ascii_env (obj1 $"http://h:0/p") /\
   o_url (fst (set_attr ascii_env (SetProtocol $"file") (obj1 $"http://h:0/p"))) = set_scheme $"file" u /\
   forall v b, std_set (api_host ascii_env) (SetProtocol $"file") u v b -> v = u /\ scheme u = $"http").
Proof.
  split; (split; [reach1|]; split; [vm_compute; reflexivity|]; intros v b H; split; [|vm_compute; reflexivity]).
  - assert (A : std_set (api_host ascii_env) (SetHost []) (o_url (obj1 $"a://h:0/p")) (o_url (obj1 $"a://h:0/p")) true).
    { apply ss_host; [|apply (override_exec_std 10); vm_compute; reflexivity]. intros [x X]. vm_compute in X. discriminate X. }
    exact (proj1 (set_det _ _ _ _ _ _ _ H A)).
  - assert (A : std_set (api_host ascii_env) (SetProtocol $"file") (o_url (obj1 $"http://h:0/p")) (o_url (obj1 $"http://h:0/p")) true).
    { apply ss_protocol. apply (override_exec_std 10). vm_compute. reflexivity. }
    exact (proj1 (set_det _ _ _ _ _ _ _ H A)).
Qed.
Print Assumptions C79_setters_refuted.

(** What holds, for every object a program can hold ([reached]) and every setter: the
    record afterwards is the one of the standard, and the setter raises exactly
    when the parser of the standard returns failure (which the standard hides from
    the caller except for href; see C47 for what is written before a failure).
    This is so exactly outside the cases of port 0 that SpecWhole.v describes.
    Missing: port texts longer than the int/str digit limit, where the code raises
    ValueError (C126); values with surrogates. The list of search_params is C50. *)
Theorem C79_setters_partial :
  forall E s o, reached E o -> scalar_string (text_of s) ->
    (forall b, setter_reads (api_host E) s (o_url o) b -> short_for (int_limit E) b) ->
    ((forall v b, std_set (api_host E) s (o_url o) v b <->
        v = o_url (fst (set_attr E s o)) /\ b = okb (snd (set_attr E s o))) <->
     ~ port_zero_case s (o_url o)).
Proof. exact setters_exact. Qed.
Print Assumptions C79_setters_partial.
(** port 0 without consequences *)
Example C79_zero :
  (forall t, ~ port_zero_case (SetHost ($"x" ++ t)) (o_url (obj1 $"a://h:0/p"))) /\ (forall t, ~ port_zero_case (SetHost t) (o_url (obj1 $"http://h:0/p"))) /\
  ~ port_zero_case (SetHost []) (o_url (obj1 $"a://u@h:0/p")) /\ ~ port_zero_case (SetProtocol $"https") (o_url (obj1 $"http://h:0/p")) /\
  port_zero_case (SetHostname $"/") (o_url (obj1 $"a://h:0/p")) /\ port_zero_case (SetProtocol $"FILE:") (o_url (obj1 $"http://h:0/p")).
Proof.
  split; [intros t (_ & _ & _ & _ & _ & _ & X); cbn in X; destruct X as [X|[X|X]]; discriminate X|].
  split; [intros t (_ & _ & _ & _ & X & _); vm_compute in X; discriminate X|].
  split; [intros (_ & X & _); vm_compute in X; discriminate X|].
  split; [intros (_ & _ & _ & _ & _ & f & r & Q & L); destruct f as [|? [|? [|? [|? [|]]]]]; try discriminate L; cbn in Q; injection Q as Q1 Q2 Q3 Q4 Q; subst; discriminate L|].
  split.
  - split; [vm_compute; reflexivity|]. split; [vm_compute; reflexivity|]. split; [vm_compute; reflexivity|].
    split; [intros [x X]; vm_compute in X; discriminate X|]. split; [vm_compute; reflexivity|]. split; [vm_compute; discriminate|]. cbn. now left.
  - split; [vm_compute; reflexivity|]. split; [vm_compute; reflexivity|]. split; [vm_compute; reflexivity|]. split; [vm_compute; reflexivity|]. split; [vm_compute; discriminate|].
    exists $"FILE", $":". split; vm_compute; reflexivity.
Qed.

(** runs of the standard's machine *)
Definition u0 : urlrec := o_url (obj1 $"http://us:pw@h:81/a/b?q#f").
Example C79_case :
  reached ascii_env (obj1 $"http://us:pw@h:81/a/b?q#f") /\
  std_set (api_host ascii_env) (SetHost $"EX.com:8080/x") u0 (set_port (Some 8080) (set_host (Some (HStr $"ex.com")) u0)) true /\
  std_set (api_host ascii_env) (SetHost $"ex.com:99999") u0 (set_host (Some (HStr $"ex.com")) u0) false /\
  std_set (api_host ascii_env) (SetHostname $"ex.com:99999") u0 u0 true /\
  std_set (api_host ascii_env) (SetPort $"443x") u0 (set_port (Some 443) u0) true /\
  std_set (api_host ascii_env) (SetProtocol $"HTTPS:x") u0 (set_scheme $"https" u0) true /\
  std_set (api_host ascii_env) (SetProtocol $"mailto") u0 u0 true /\
  std_set (api_host ascii_env) (SetPathname $"c\.././d?#") u0 (set_path (PList [$"d%3F%23"]) u0) true /\
  std_set (api_host ascii_env) (SetSearch $"?a'b#") u0 (set_query (Some $"a%27b%23") u0) true /\
  std_set (api_host ascii_env) (SetHash $"#a b") u0 (set_fragment (Some $"a%20b") u0) true.
Proof.
  assert (NO : ~ std_opaque u0) by (intros [x X]; vm_compute in X; discriminate X).
  assert (NA : ~ std_no_authority u0) by (intros [X|[X|X]]; vm_compute in X; discriminate X).
  split; [reach1|]. split; [apply ss_host; [exact NO|]; apply (override_exec_std 50); vm_compute; reflexivity|].
  split; [apply ss_host; [exact NO|]; apply (override_exec_std 50); vm_compute; reflexivity|].
  split; [apply ss_hostname; [exact NO|]; apply (override_exec_std 50); vm_compute; reflexivity|].
  split; [apply ss_port; [exact NA|discriminate|]; apply (override_exec_std 50); vm_compute; reflexivity|].
  split; [apply ss_protocol; apply (override_exec_std 50); vm_compute; reflexivity|].
  split; [apply ss_protocol; apply (override_exec_std 50); vm_compute; reflexivity|].
  split; [apply ss_pathname; [exact NO|]; apply (override_exec_std 50); vm_compute; reflexivity|].
  split; [apply ss_search; [discriminate|]; apply (override_exec_std 50); vm_compute; reflexivity|].
  apply ss_hash; [discriminate|]; apply (override_exec_std 50); vm_compute; reflexivity.
Qed.

(** C85: the same with the standard's host parser. False like C77 ... *)
Notation std_hp E := (std_host_parse (code_to_ascii (with_validity E false))).
Theorem C85_setters_whole_refuted :
  let o := obj1 $"http://h/p" in
  reached ascii_env o /\ snd (set_attr ascii_env (SetHostname $"1_0") o) = Ok tt /\
  uhost (o_url (fst (set_attr ascii_env (SetHostname $"1_0") o))) = Some (HIPv4 10) /\
  std_set (std_hp ascii_env) (SetHostname $"1_0") (o_url o) (set_host (Some (HStr $"1_0")) (o_url o)) true.
Proof.
  cbv zeta. split; [reach1|]. split; [vm_compute; reflexivity|]. split; [vm_compute; reflexivity|].
  apply ss_hostname; [intros [x X]; vm_compute in X; discriminate X|]. apply (override_exec_std 50). vm_compute. reflexivity.
Qed.
Print Assumptions C85_setters_whole_refuted.
(** ... and true when the host that the setter parses, if any, is regular. Missing
    besides that: what is missing from C79. *)
Theorem C85_setters_whole_partial :
  forall E s o, limit_ok E -> reached E o -> scalar_string (text_of s) ->
  (forall b, setter_reads (std_hp E) s (o_url o) b -> short_for (int_limit E) b) -> ~ port_zero_case s (o_url o) ->
  (forall h op, setter_asks (std_hp E) s (o_url o) h op -> regular_host (with_validity E false) h op) ->
  forall v b, std_set (std_hp E) s (o_url o) v b <-> v = o_url (fst (set_attr E s o)) /\ b = okb (snd (set_attr E s o)).
Proof. exact setters_whole. Qed.
Print Assumptions C85_setters_whole_partial.
Example C85_case :
  (forall h op, setter_asks (std_hp ascii_env) (SetHost $"EX.com:8080/x") u0 h op -> regular_host (with_validity ascii_env false) h op) /\
  std_set (std_hp ascii_env) (SetHost $"EX.com:8080/x") u0 (set_port (Some 8080) (set_host (Some (HStr $"ex.com")) u0)) true.
Proof.
  split.
  - intros h op [_ A]. apply (oasks_list_all 50 _ _ _ _ [($"EX.com", false)]) in A; [|vm_compute; reflexivity]. destruct A as [A|[]]. injection A as <- <-.
    apply bare_regular; [discriminate|]. intros d H. assert (d = $"ex.com") by (vm_compute in H; now injection H as <-). subst d. split; [apply not_odd; vm_compute; reflexivity|].
    intros Q. vm_compute in Q. discriminate Q.
  - apply ss_host; [intros [x X]; vm_compute in X; discriminate X|]. apply (override_exec_std 50). vm_compute. reflexivity.
Qed.
(** The condition on the host is exact: the results are equal if and only if the host is
    regular or both fail without changing the record. *)
Theorem C85_setters_exact :
  forall E s o, limit_ok E -> reached E o -> scalar_string (text_of s) ->
  (forall b, setter_reads (api_host E) s (o_url o) b -> short_for (int_limit E) b) -> ~ port_zero_case s (o_url o) ->
  ((forall v b, std_set (std_hp E) s (o_url o) v b <-> v = o_url (fst (set_attr E s o)) /\ b = okb (snd (set_attr E s o))) <->
   (forall h op, setter_asks (std_hp E) s (o_url o) h op -> regular_host (with_validity E false) h op) \/
   (std_set (std_hp E) s (o_url o) (o_url o) false /\ o_url (fst (set_attr E s o)) = o_url o /\ okb (snd (set_attr E s o)) = false)).
Proof. exact setters_whole_exact. Qed.
Print Assumptions C85_setters_exact.
(** an odd host where both fail: for the standard the host is invalid; the code reads it
    as the host that the URL has, and then fails at the port *)
Example C85_both_fail :
  let o := obj1 $"http://10.0.0.5/" in let s := SetHost $"1_0.5:99999" in
  reached ascii_env o /\ api_host ascii_env $"1_0.5" false = uhost (o_url o) /\ std_hp ascii_env $"1_0.5" false = None /\
  std_set (std_hp ascii_env) s (o_url o) (o_url o) false /\ o_url (fst (set_attr ascii_env s o)) = o_url o /\ okb (snd (set_attr ascii_env s o)) = false.
Proof.
  cbv zeta. split; [reach1|]. split; [vm_compute; reflexivity|]. split; [vm_compute; reflexivity|].
  split; [|split; vm_compute; reflexivity].
  apply ss_host; [intros [x X]; vm_compute in X; discriminate X|]. apply (override_exec_std 50). vm_compute. reflexivity.
Qed.
