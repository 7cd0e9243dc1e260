(** C112, C117, C122: exactly what happens when a description cannot be formatted. *)
From Coq Require Import Ascii String.
From Coq Require Import NArith ZArith Bool Arith Lia List.
From Verif Require Import PyStr PyInt Codec Env HostModel UrlRecord Parser UrlApi Repr Message MsgHost MsgParser MsgValidators MsgApi ExampleEnv SpecText SpecHost.
From Verif Require Import IPv4Proofs HostProofs WfProofs UrlProps ValidatorProofs IntGrammar MsgProofs MsgParserProofs MsgCallProofs RaisedProofs PropMessages PropValidity PropSetText.
From Verif Require Import SpecPyInt SpecUrl SpecParser SpecReports SpecRepr SpecIdna SpecMessages SpecValidity SpecRaised.
Import ListNotations.
Open Scope N_scope.

(** C112: every entry that a ValidityState gets has a description, or the call ends with ValueError
    and only the last one has none, an IPv4 part that is out of range. No assumption on numbers. *)
Theorem C112_described_exactly :
  forall X s base enc, message_call (checking X) s base enc ->
  Forall (fun en => e_text en <> None) (fst (m_parse_url (checking X) s base enc)) \/
  last_untold (fst (m_parse_url (checking X) s base enc)) /\ snd (m_parse_url (checking X) s base enc) = MErr EValue None.
Proof.
  intros X s base enc (H1 & H2 & H4 & H5 & H6 & H7 & H8). destruct (described_or X H1 H2 s base enc H4 H5 H6 H7 H8) as [D|(l & en & D1 & D2 & D3 & D4 & D5)]; [left; exact D|].
  right. split; [|exact D5]. exists l, en. auto.
Qed.
Print Assumptions C112_described_exactly.

(** C117: URLValidator.is_valid leaves a ValidityState in order and answers by it, or raises ValueError
    and leaves one type more than descriptions. *)
Theorem C117_url_validity_exactly :
  forall X s base enc v, message_call (checking X) s base enc ->
  says (url_check (m_env (checking X)) (m_icu_code X) base enc s) (m_url_is_valid X s base enc v) \/
  one_short (call_message (m_env (checking X)) (m_icu_code X) base enc s) (snd (m_url_is_valid X s base enc v)) /\
  fst (m_url_is_valid X s base enc v) = MErr EValue None.
Proof. intros X s base enc v (H1 & H2 & H4 & H5 & H6 & H7 & H8). exact (url_check_or X H1 H2 s base enc v H4 H5 H6 H7 H8). Qed.
Print Assumptions C117_url_validity_exactly.

(** C122: the same for URL.can_parse. *)
Theorem C122_can_parse_exactly :
  forall X s base v, message_call (checking X) s base UTF8 ->
  in_order (call_message (m_env (checking X)) (m_icu_code X) base UTF8 s) (snd (m_can_parse X s base v)) \/
  one_short (call_message (m_env (checking X)) (m_icu_code X) base UTF8 s) (snd (m_can_parse X s base v)) /\
  fst (m_can_parse X s base v) = MErr EValue None.
Proof. intros X s base v (H1 & H2 & H4 & H5 & H6 & H7 & H8). exact (can_parse_or X H1 H2 s base v H4 H5 H6 H7 H8). Qed.
Print Assumptions C122_can_parse_exactly.
(** so a call that answers leaves a state in order *)
Theorem C122_answered :
  forall X s base v b, message_call (checking X) s base UTF8 -> fst (m_can_parse X s base v) = MOk b ->
  in_order (call_message (m_env (checking X)) (m_icu_code X) base UTF8 s) (snd (m_can_parse X s base v)).
Proof. intros X s base v b H R. destruct (C122_can_parse_exactly X s base v H) as [O|(_ & O)]; [exact O|]. rewrite R in O. discriminate O. Qed.
Print Assumptions C122_answered.

(** Both cases occur: an address of 540 hexadecimal digits under the lowest limit, and a usual one. *)
Example raised_case :
  message_call (checking low_plain) ($"http://0x" ++ repeat 102 540) BNone UTF8 /\
  fst (m_can_parse low_plain ($"http://0x" ++ repeat 102 540) BNone None) = MErr EValue None /\
  ms_types (snd (m_can_parse low_plain ($"http://0x" ++ repeat 102 540) BNone None)) = [$"IPv4-out-of-range-part"; $"IPv4-non-decimal-part"] /\
  length (ms_descs (snd (m_can_parse low_plain ($"http://0x" ++ repeat 102 540) BNone None))) = 1%nat /\
  fst (m_url_is_valid low_plain ($"http://0x" ++ repeat 102 540) BNone UTF8 None) = MErr EValue None /\
  message_call (checking low_plain) $"http://256/" BNone UTF8 /\
  fst (m_can_parse low_plain $"http://256/" BNone None) = MOk true /\
  ms_types (snd (m_can_parse low_plain $"http://256/" BNone None)) = [$"IPv4-out-of-range-part"] /\
  length (ms_descs (snd (m_can_parse low_plain $"http://256/" BNone None))) = 1%nat.
Proof.
  assert (M : forall s, is_pystr s -> (length s < 4000)%nat -> message_call (checking low_plain) s BNone UTF8).
  { intros s H1 H2. split; [unfold limit_ok; cbn; lia|]. split; [destruct ascii_env_idna as [A1 A2]; constructor; [exact A1|exact A2]|]. split; [apply enc_utf8; vm_compute; reflexivity|]. split; [exact H1|]. split; [|split; [exact I|discriminate]].
    unfold short. assert (P : N.of_nat (length s) < 4000) by lia. eapply N.lt_trans; [exact P|]. vm_compute. reflexivity. }
  apply conj. { apply M; [apply Forall_app; split; [repeat constructor; discriminate|apply Forall_forall; intros c C; apply repeat_spec in C; subst c; discriminate]|apply Nat.ltb_lt; vm_compute; reflexivity]. }
  apply conj; [vm_compute; reflexivity|]. apply conj; [vm_compute; reflexivity|]. apply conj; [vm_compute; reflexivity|]. apply conj; [vm_compute; reflexivity|].
  apply conj. { apply M; [repeat constructor; discriminate|apply Nat.ltb_lt; vm_compute; reflexivity]. }
  apply conj; [vm_compute; reflexivity|]. apply conj; vm_compute; reflexivity.
Qed.
