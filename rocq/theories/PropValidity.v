(** C115-C117: what validators record in a ValidityState. *)
From Coq Require Import Ascii String.
From Coq Require Import NArith ZArith Bool Arith Lia ZifyBool ZifyN ZifyNat List.
From Verif Require Import PyStr PyInt Codec Env HostModel UrlRecord Parser Schemes Validators Repr Message MsgHost MsgParser MsgValidators ExampleEnv SpecText SpecHost.
From Verif Require Import QuoteProofs IPv4Proofs HostProofs WfProofs UrlProps ValidatorProofs IntGrammar MsgProofs MsgParserProofs MsgCallProofs MsgValidatorProofs PropMessages.
From Verif Require Import SpecPyInt SpecUrl SpecParser SpecReports SpecRepr SpecIdna SpecMessages SpecValidity.
Import ListNotations.
Open Scope N_scope.

(** calls of HostValidator *)
Definition host_call (X : menv) (h : list N) : Prop :=
  limit_ok (m_env X) /\ is_pystr h.
Definition plain_menv : menv := {| m_env := ascii_env; m_print := fun _ => false; m_icu_code := fun _ _ => $"<ErrorCode(<U_MEMORY_ALLOCATION_ERROR: 7>)>" |}.
Lemma plain_call h : is_pystr h -> host_call plain_menv h.
Proof. intros H. split; [exact ascii_env_limit|]. exact H. Qed.

(** C115: the texts do not influence verdicts, types and counts. *)
Theorem C115_same_host_verdict :
  forall X h, host_call X h -> forall v v',
  agrees (m_host_is_valid X h v) (host_is_valid (m_env X) h v') /\
  agrees (m_is_valid_domain X h v) (is_valid_domain (m_env X) h v') /\
  agrees (m_is_valid_opaque_host X h v) (is_valid_opaque_host (m_env X) h v') /\
  agrees (m_is_valid_ipv6_address X h v) (is_valid_ipv6_address (m_env X) h v').
Proof.
  intros X h (H1 & H3) v v'. split; [exact (proj1 (host_check_sim X H1 h H3 v v'))|]. split; [exact (proj1 (domain_check_sim X h H3 v v'))|].
  split; [exact (proj1 (opaque_check_sim X H1 h H3 v v'))|exact (proj1 (v6_check_sim X H1 h H3 v v'))].
Qed.
Print Assumptions C115_same_host_verdict.
Theorem C115_same_ipv4_verdict :
  forall X h, host_call X h ->
  (forall st vs, exists st' vs', snd (m_is_valid_ipv4_address X h (Some st)) = Some st' /\ snd (is_valid_ipv4_address (m_env X) h (Some vs)) = Some vs' /\
     untold (fst (m_is_valid_ipv4_address X h (Some st))) = Ok (fst (is_valid_ipv4_address (m_env X) h (Some vs))) /\ kept st' vs') /\
  untold (fst (m_is_valid_ipv4_address X h None)) = Ok (fst (is_valid_ipv4_address (m_env X) h None)) /\ snd (m_is_valid_ipv4_address X h None) = None.
Proof.
  intros X h (H1 & H3). split.
  - intros st vs. destruct (v4_check_sim X h H3 (Some st) (Some vs) I) as (A & B). destruct (snd (m_is_valid_ipv4_address X h (Some st))) as [st'|], (snd (is_valid_ipv4_address (m_env X) h (Some vs))) as [vs'|]; try contradiction; [|discriminate B].
    exists st', vs'. split; [reflexivity|]. split; [reflexivity|]. split; [exact A|apply B].
  - destruct (v4_check_sim X h H3 None None I) as (A & B). split; [exact A|]. destruct (snd (m_is_valid_ipv4_address X h None)) as [st'|]; [|reflexivity]. destruct (snd (is_valid_ipv4_address (m_env X) h None)); [destruct B as (B & _); contradiction|contradiction].
Qed.
Print Assumptions C115_same_ipv4_verdict.
Theorem C115_same_url_verdict :
  forall X s base enc, message_call (checking X) s base enc -> forall v v',
  agrees (m_url_is_valid X s base enc v) (url_is_valid (m_env X) s base enc v').
Proof. intros X s base enc (H1 & H2 & H4 & H5 & H6 & H7 & H8) v v'. exact (proj1 (url_check_sim X H1 H2 s base enc H4 H5 H6 H7 H8 v v')). Qed.
Print Assumptions C115_same_url_verdict.
Theorem C115_same_scheme_verdict :
  forall X s, ascii_str s -> forall v v',
  agrees (m_is_valid_url_scheme X s v) (Ok (fst (is_valid_url_scheme (m_env X) s v')), snd (is_valid_url_scheme (m_env X) s v')).
Proof. intros X s H v v'. exact (proj1 (scheme_check_sim X s H v v')). Qed.
Print Assumptions C115_same_scheme_verdict.
Example C115_case : host_call plain_menv $"1.2.3" /\ message_call (checking plain_menv) $"foo://h/^" BNone UTF8 /\
  ms_types (snd (m_host_is_valid plain_menv $"1.2.3" None)) = [$"undefined"] /\
  ms_types (snd (m_url_is_valid plain_menv $"foo://h/^" BNone UTF8 None)) = [$"undefined"; $"invalid-URL-unit"].
Proof. split; [apply plain_call; repeat constructor; discriminate|]. split; [apply ascii_call; [repeat constructor; discriminate|cbn; lia|exact I]|]. split; vm_compute; reflexivity. Qed.

(** C116: after a call of HostValidator there is a description to every type, the count and the flag are
    right, each description is true of the host, and the answer is True if and only if there are none. *)
Theorem C116_host_validity :
  forall X h v, host_call X h ->
  says (host_check (m_env X) (m_icu_code X) h) (m_host_is_valid X h v) /\
  says (domain_check (m_env X) (m_icu_code X) h) (m_is_valid_domain X h v) /\
  says (opaque_check h) (m_is_valid_opaque_host X h v) /\
  says (v6_message h) (m_is_valid_ipv6_address X h v) /\
  (forall st, v = Some st -> exists st', snd (m_is_valid_ipv4_address X h v) = Some st' /\ says (v4_check (m_env X) h) (fst (m_is_valid_ipv4_address X h v), st')).
Proof.
  intros X h v (H1 & H3). split; [exact (proj2 (host_check_sim X H1 h H3 v None))|]. split; [exact (proj2 (domain_check_sim X h H3 v None))|].
  split; [exact (proj2 (opaque_check_sim X H1 h H3 v None))|]. split; [exact (proj2 (v6_check_sim X H1 h H3 v None))|].
  intros st ->. destruct (v4_check_sim X h H3 (Some st) (Some vs_fresh) I) as (_ & B). destruct (snd (m_is_valid_ipv4_address X h (Some st))) as [st'|], (snd (is_valid_ipv4_address (m_env X) h (Some vs_fresh))) as [vs'|]; try contradiction; [|discriminate B].
  exists st'. split; [reflexivity|apply B].
Qed.
Print Assumptions C116_host_validity.
Example C116_case : host_call plain_menv $"1.2.3.4.5" /\
  ms_descs (snd (m_host_is_valid plain_menv $"1.2.3.4.5" None)) = [$"IPv4-too-many-parts: IPv4 address does not consist of exactly 4 parts: '1.2.3.4.5'"] /\
  ms_descs (snd (m_host_is_valid plain_menv $"1.2.3.0x10" None)) = [$"IPv4-non-decimal-part: IPv4 address contains numbers expressed using hexadecimal or octal digits: '0x10' in '1.2.3.0x10'"] /\
  ms_descs (snd (m_host_is_valid plain_menv $"1.2.3.256" None)) = [$"IPv4-out-of-range-part: IPv4 address part exceeds 255: '256' in '1.2.3.256'"] /\
  ms_descs (snd (m_host_is_valid plain_menv $"[1::2::3]" None)) = [$"IPv6-multiple-compression: IPv6 address is compressed in more than one spot: '1::2::3'"] /\
  ms_descs (snd (m_is_valid_opaque_host plain_menv $"a%zz" None)) = [$"invalid-URL-unit: incorrect percent encoding is found: '%zz' in 'a%zz'"] /\
  ms_descs (snd (m_is_valid_opaque_host plain_menv [] None)) = [$"opaque host string is empty"] /\
  ms_descs (snd (m_is_valid_opaque_host plain_menv $"a^b" None)) = [$"host-invalid-code-point: opaque host (in a URL that is not special) contains a forbidden host code point: 'a^b'"].
Proof. split; [apply plain_call; repeat constructor; discriminate|]. repeat split; vm_compute; reflexivity. Qed.
(** The scheme check quotes the lower-cased scheme. *)
Theorem C116_scheme_validity :
  forall X s v, ascii_str s -> says (scheme_check (std_lower s)) (m_is_valid_url_scheme X s v).
Proof. intros X s v H. exact (proj2 (scheme_check_sim X s H v None)). Qed.
Print Assumptions C116_scheme_validity.
Example C116_case_scheme : ms_descs (snd (m_is_valid_url_scheme plain_menv $"FOO" None)) = [$"scheme is not registered in the IANA URI Schemes registry: 'foo'"].
Proof. vm_compute. reflexivity. Qed.

(** C117: the same for URLValidator.is_valid. False when a number cannot be quoted. *)
Theorem C117_url_validity_refuted :
  exists s, let r := m_url_is_valid low_menv s BNone UTF8 None in
  length (ms_types (snd r)) = 2%nat /\ length (ms_descs (snd r)) = 1%nat /\ ms_count (snd r) = 1%nat /\ fst r = MErr EValue None.
Proof. exists ($"http://0x" ++ repeat 102 540). vm_compute. repeat split; reflexivity. Qed.
Print Assumptions C117_url_validity_refuted.
(** That is the only exception. *)
Theorem C117_url_validity_partial :
  forall X s base enc v, message_call (checking X) s base enc -> ~ call_unquotable (m_env (checking X)) base s ->
  says (url_check (m_env (checking X)) (m_icu_code X) base enc s) (m_url_is_valid X s base enc v).
Proof. intros X s base enc v (H1 & H2 & H4 & H5 & H6 & H7 & H8). exact (proj2 (url_check_sim X H1 H2 s base enc H4 H5 H6 H7 H8 v None)). Qed.
Print Assumptions C117_url_validity_partial.
(** the example of the class ValidityState (parse.py:2990-3010) *)
Example C117_case : message_call (checking plain_menv) $"https://example/%?%#%" BNone UTF8 /\
  m_url_is_valid plain_menv $"https://example/%?%#%" BNone UTF8 None =
    (MOk false, mkms false [$"invalid-URL-unit"; $"invalid-URL-unit"; $"invalid-URL-unit"]
      [$"invalid-URL-unit: incorrect percent encoding is found: '%' in 'https://example/%?%#%' at position 20";
       $"invalid-URL-unit: incorrect percent encoding is found: '%#%' in 'https://example/%?%#%' at position 18";
       $"invalid-URL-unit: incorrect percent encoding is found: '%?%' in 'https://example/%?%#%' at position 16"] 3).
Proof. split; [apply ascii_call; [repeat constructor; discriminate|cbn; lia|exact I]|]. vm_compute. reflexivity. Qed.
(** the second hypothesis holds for all inputs where Python has no such limit, and for that URL *)
Example C117_case_quotable : forall X base s, int_limit (m_env X) = None -> ~ call_unquotable (m_env (checking X)) base s.
Proof.
  intros X base s L. assert (G : forall x, ~ unquotable (m_env (checking X)) x).
  { intros x (h & errors & d & ns & _ & _ & _ & K). apply K. apply Forall_forall. intros n _. unfold printable. change (int_limit (m_env (checking X))) with (int_limit (m_env X)). now rewrite L. }
  intros [K|(t & _ & K)]; exact (G _ K).
Qed.

(** C118: 'ends with a U+002E (.)' is said of addresses that end with one. False: it is said of the empty
    string, too. *)
Theorem C118_trailing_dot_refuted :
  exists h st, snd (m_is_valid_ipv4_address plain_menv h (Some ms_fresh)) = Some st /\
  In ($"IPv4-empty-part: IPv4 address ends with a U+002E (.): ''") (ms_descs st) /\ h = [].
Proof. exists []. eexists. split; [vm_compute; reflexivity|]. split; [left; reflexivity|reflexivity]. Qed.
Print Assumptions C118_trailing_dot_refuted.
(** True for other strings. *)
Theorem C118_trailing_dot_partial :
  forall X h st0 st, host_call X h -> h <> [] -> snd (m_is_valid_ipv4_address X h (Some st0)) = Some st ->
  In $"IPv4-empty-part" (ms_types st) -> exists b, h = b ++ [46].
Proof.
  intros X h st0 st H N0 Q I0. pose proof H as H'. destruct (C116_host_validity X h (Some st0) H) as (_ & _ & _ & _ & K). destruct (K st0 eq_refl) as (st' & K1 & (K2 & _) & _). rewrite Q in K1. injection K1 as <-. cbn [snd] in K2.
  exact (trailing_dot (m_env X) h _ _ N0 K2 I0).
Qed.
Print Assumptions C118_trailing_dot_partial.
Example C118_case : host_call plain_menv $"1.2.3.4." /\
  option_map ms_descs (snd (m_is_valid_ipv4_address plain_menv $"1.2.3.4." (Some ms_fresh))) = Some [$"IPv4-empty-part: IPv4 address ends with a U+002E (.): '1.2.3.4.'"].
Proof. split; [apply plain_call; repeat constructor; discriminate|]. vm_compute. reflexivity. Qed.
