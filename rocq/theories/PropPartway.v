(** The exact form of C47, C48 and C66. *)
From Coq Require Import Ascii String.
From Coq Require Import NArith ZArith Bool Arith List.
From Verif Require Import PyStr PyInt Codec Env HostModel UrlRecord Parser SearchParams UrlApi.
From Verif Require Import Validators ValidityRaise PartwayProofs ApiProofs ExampleEnv PropApi SpecText SpecHost SpecUrl SpecApi SpecPartway.
Import ListNotations.
Open Scope N_scope.

(** C47: an assignment raises and changes the object exactly if the text is assigned to
    host, is a host that differs from the present one, and a port follows that is refused. *)
Theorem C47_exactly :
  forall E s o,
  (exists e, snd (set_attr E s o) = Err e) /\ fst (set_attr E s o) <> o <->
  exists v a d r h, s = SetHost v /\ ~ std_opaque (o_url o) /\ scheme (o_url o) <> $"file" /\
    refused_port E (is_special (o_url o)) (std_strip_tabs v) a d r /\
    snd (host_parse (with_validity E false) a (is_not_special (o_url o))) = Ok h /\ uhost (o_url o) <> Some h.
Proof. exact raise_exactly. Qed.
Print Assumptions C47_exactly.
(** Then the host is the only thing that has changed. *)
Theorem C47_changed :
  forall E o v, ~ std_opaque (o_url o) -> scheme (o_url o) <> $"file" -> forall a d r h,
  refused_port E (is_special (o_url o)) (std_strip_tabs v) a d r ->
  snd (host_parse (with_validity E false) a (is_not_special (o_url o))) = Ok h ->
  exists e, set_attr E (SetHost v) o = (mkobj (set_host (Some h) (o_url o)) (o_list o), Err e).
Proof. exact host_raise. Qed.
Print Assumptions C47_changed.
Example C47_exactly_case :
  refused_port ascii_env true (std_strip_tabs $"[::1]:65536x") $"[::1]" $"65536" $"x" /\
  set_attr ascii_env (SetHost $"[::1]:65536x") (obj $"http://h/") = (obj $"http://[::1]/", Err EURLParse) /\
  set_attr ascii_env (SetHost $"h:65536") (obj $"http://h/") = (obj $"http://h/", Err EURLParse) /\
  set_attr ascii_env (SetHost $"g:x65536") (obj $"http://h/") = (obj $"http://g/", Ok tt) /\
  set_attr ascii_env (SetHost $"g/:65536") (obj $"http://h/") = (obj $"http://g/", Ok tt).
Proof.
  split; [|repeat split; vm_compute; reflexivity]. split; [reflexivity|]. split; [discriminate|]. split; [reflexivity|]. split.
  - split; [discriminate|]. exists 65536. split; [reflexivity|now left].
  - intros c r' H. injection H as <- _. reflexivity.
Qed.

(** C48: exactly the objects with a port but no host that may have one break the invariant. *)
Theorem C48_exactly : forall E o, reached E o -> (url_invariant (o_url o) <-> ~ stray_port (o_url o)).
Proof. exact invariant_exactly. Qed.
Print Assumptions C48_exactly.
Example C48_exactly_case :
  let o := do_call ascii_env (CSet (SetHost [])) (obj $"a://h:0") in
  reached ascii_env o /\ stray_port (o_url o) /\ get_href o = $"a://:0" /\
  reached ascii_env (obj $"a://h:0") /\ ~ stray_port (o_url (obj $"a://h:0")).
Proof.
  cbv zeta. split; [reach|]. split; [split; [vm_compute; discriminate|right; left; vm_compute; reflexivity]|]. split; [vm_compute; reflexivity|].
  split; [reach|]. intros [_ [H|[H|H]]]; vm_compute in H; discriminate.
Qed.

(** C66, with calls of prepend that raise: the types outnumber the count by the number of
    these calls; everything else is as it should be. *)
Theorem C66_raising :
  (forall n s, vs_raised n s ->
     length (vs_types s) = (vs_count s + n)%nat /\ vs_descs s = vs_count s /\ (vs_valid s = true <-> vs_types s = [])) /\
  (forall E s base enc v, vs_raised (raising (fst (parse_url (with_validity E true) s base enc))) (snd (url_is_valid E s base enc v))).
Proof. exact (conj vs_raised_spec url_valid_raised). Qed.
Print Assumptions C66_raising.
Example C66_raising_case :
  let s := $"http://0x" ++ repeat 102 540 ++ $".1/" in
  let vs := snd (url_is_valid low_env s BNone UTF8 None) in
  raising (fst (parse_url (with_validity low_env true) s BNone UTF8)) = 1%nat /\
  length (vs_types vs) = 2%nat /\ vs_count vs = 1%nat.
Proof. vm_compute. repeat split; reflexivity. Qed.
