(** Property theorem C127: which hosts HostValidator says are valid. *)
From Coq Require Import Ascii String.
From Coq Require Import NArith ZArith Bool Arith Lia List.
From Verif Require Import PyStr PyInt Codec Env HostModel UrlRecord Parser Schemes Validators.
From Verif Require Import PyIntProofs IPv4Proofs IntGrammar IPv6Grammar HostProofs ValidatorProofs HostWritingProofs ExampleEnv.
From Verif Require Import SpecText SpecHost SpecPyInt SpecIPv6 SpecRaise SpecWriting SpecHostWriting.
Import ListNotations.
Open Scope N_scope.

(** The standard's definitions (section 3.4) are not met: the code takes "[:::1]" for an opaque
    host, "1.2.3.+4" for a host, and does not take "1.2.3.999" for one although it is a
    valid domain. *)
Theorem C127_host_writing_refuted :
  (fst (is_valid_opaque_host ascii_env $"[:::1]" None) = Ok true /\ ~ opaque_host_string std_address $"[:::1]") /\
  (fst (host_is_valid ascii_env $"1.2.3.999" None) = Ok false /\ std_valid_host ascii_env $"1.2.3.999") /\
  (fst (host_is_valid ascii_env $"1.2.3.+4" None) = Ok true /\ ~ std_quad $"1.2.3.+4").
Proof.
  split; [|split].
  - split; [vm_compute; reflexivity|]. intros [[_ U]|(t & B & a & A)].
    + inversion U as [|x y [_ Z] _|]. discriminate Z.
    + assert (t = $":::1") as -> by (apply (app_inv_tail [93]); injection B as <-; reflexivity).
      apply std_v6_iff in A. vm_compute in A. discriminate A.
  - split; [vm_compute; reflexivity|]. left. exists $"1.2.3.999". split.
    + split; [discriminate|]. exists 0. split; [vm_compute; reflexivity|]. intros i. rewrite N.bits_0. discriminate.
    + exists $"1.2.3.999", 0. split; [vm_compute; reflexivity|]. intros i. rewrite N.bits_0. discriminate.
  - split; [vm_compute; reflexivity|]. intros H. apply valid_ipv4_split in H as (a & b & c & d & _ & _ & _ & _ & Q).
    change (split 46 $"1.2.3.+4") with [$"1"; $"2"; $"3"; $"+4"] in Q. cbn [map] in Q. injection Q as _ _ _ Q.
    pose proof (dec_str_no 43 d (or_introl eq_refl)) as D. rewrite <- Q in D. vm_compute in D. discriminate D.
Qed.
Print Assumptions C127_host_writing_refuted.

(** The exact sets (SpecHostWriting.v), for every ValidityState passed in. *)
Theorem C127_exactly :
  (forall E d v, (fst (is_valid_domain E d v) = Ok true <-> code_valid_domain E d) /\
     (fst (is_valid_domain E d v) = Ok true \/ fst (is_valid_domain E d v) = Ok false)) /\
  (forall E h v, limit_ok E -> (fst (host_is_valid E h v) = Ok true <-> code_valid_host E h)) /\
  (forall E h v, limit_ok E ->
     (fst (host_is_valid E h v) = Err EValue <-> exists t, bracketed h t /\ v6_value_error (int_limit E) t) /\
     forall e, fst (host_is_valid E h v) = Err e -> e = EValue) /\
  (forall E h v, limit_ok E -> (fst (is_valid_opaque_host E h v) = Ok true <-> code_valid_opaque h)).
Proof. exact (conj domain_exact (conj host_exact (conj host_verdict opaque_exact))). Qed.
Print Assumptions C127_exactly.

(** Where they are the standard's. *)
Theorem C127_standard_partial :
  (forall E h v, limit_ok E ->
     (forall t, bracketed h t -> ~ odd_v6 t -> (fst (host_is_valid E h v) = Ok true <-> std_address t)) /\
     (not_bracketed h -> ~ code_numeric E h -> unicode_agrees E -> (fst (host_is_valid E h v) = Ok true <-> std_valid_host E h)) /\
     (not_bracketed h -> std_quad h -> fst (host_is_valid E h v) = Ok true) /\
     (not_bracketed h -> code_numeric E h -> forallb plain_char h = true -> (fst (host_is_valid E h v) = Ok true <-> std_quad h))) /\
  (forall E h v, limit_ok E -> (forall t, bracketed h t -> ~ odd_v6 t) ->
     (fst (is_valid_opaque_host E h v) = Ok true <-> opaque_host_string std_address h)).
Proof. exact (conj host_standard opaque_standard). Qed.
Print Assumptions C127_standard_partial.

(** an ICU that reports '_' as disallowed (bit 7) in ToUnicode, a leading hyphen (bit 3) in
    both, and labels over 63 (bit 1) in ToASCII *)
Definition picky_env : env :=
  {| icu_to_ascii := fun _ d => IcuOk ((if starts_with $"-" d then 8 else 0) + (if (63 <? length d)%nat then 2 else 0)) (lower d);
     icu_to_unicode := fun _ d => IcuOk ((if mem 95 d then 128 else 0) + (if starts_with $"-" d then 8 else 0) + (if (63 <? length d)%nat then 2 else 0)) d;
     codec := codec ascii_env; uni_decimal := uni_decimal ascii_env; uni_space := uni_space ascii_env; uni_lower := uni_lower ascii_env;
     int_limit := Some 4300; has_validity := false |}.
Example C127_domains :
  fst (is_valid_domain picky_env $"-A.b" None) = Ok true /\ fst (is_valid_domain picky_env $"a_b" None) = Ok false /\
  fst (is_valid_domain picky_env (repeat 97 64) None) = Ok false /\ fst (is_valid_domain picky_env [] None) = Ok false /\
  code_valid_domain picky_env $"-A.b" /\ ~ code_valid_domain picky_env $"a_b".
Proof.
  do 4 (split; [vm_compute; reflexivity|]). split.
  - apply (proj1 (domain_exact picky_env $"-A.b" None)). vm_compute. reflexivity.
  - intros D. apply (proj1 (domain_exact picky_env $"a_b" None)) in D. vm_compute in D. discriminate D.
Qed.
Example C127_hosts : code_valid_host ascii_env $"[1.2.3.4:a::5.6.7.8:b]" /\ code_valid_host ascii_env $"1.2.3.4" /\
  ~ code_valid_host ascii_env $"1.2.3.256" /\ code_valid_host ascii_env $"a-b.example" /\
  code_valid_opaque $"a%41b" /\ ~ code_valid_opaque $"a:b" /\ ~ code_valid_opaque [].
Proof.
  pose proof (fun h => host_exact ascii_env h None ascii_env_limit) as X. pose proof (fun h => opaque_exact ascii_env h None ascii_env_limit) as Y.
  split; [apply X; vm_compute; reflexivity|]. split; [apply X; vm_compute; reflexivity|].
  split; [intros H; apply X in H; vm_compute in H; discriminate H|]. split; [apply X; vm_compute; reflexivity|].
  split; [apply Y; vm_compute; reflexivity|]. split; intros H; apply Y in H; vm_compute in H; discriminate H.
Qed.
(** the hypotheses of the comparison can be met *)
Example C127_agrees : unicode_agrees ascii_env /\ not_bracketed $"a-b.example" /\ ~ code_numeric ascii_env $"a-b.example" /\ ~ odd_v6 $"fe80::1".
Proof.
  split; [|split; [|split]].
  - intros d a _. split; intros _; [exists a, 0|exists d, 0]; (split; [reflexivity|]); intros i; rewrite N.bits_0; discriminate.
  - intros t B. discriminate B.
  - intros H. apply numeric_exact in H. vm_compute in H. discriminate H.
  - apply (ipv6_same ascii_env); [exact ascii_env_limit|vm_compute; reflexivity].
Qed.
