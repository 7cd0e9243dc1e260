(** C109-C113: the texts of validation errors and exceptions. *)
From Coq Require Import Ascii String.
From Coq Require Import NArith ZArith Bool Arith Lia ZifyBool ZifyN ZifyNat List.
From Verif Require Import PyStr PyInt Codec Env HostModel UrlRecord Parser UrlApi Repr Message MsgHost MsgParser ExampleEnv SpecText SpecHost.
From Verif Require Import IPv4Proofs HostProofs WfProofs UrlProps ValidatorProofs IntGrammar MsgProofs MsgParserProofs MsgCallProofs CredentialProofs.
From Verif Require Import SpecPyInt SpecUrl SpecParser SpecReports SpecRepr SpecIdna SpecMessages SpecReference.
Import ListNotations.
Open Scope N_scope.

(** Calls parse_url(s, base, encoding) under the usual assumptions: a working ICU, strings as arguments.
    Positions are printed, so the strings have fewer than 10^640 characters. *)
Definition message_call (X : menv) (s : list N) (base : base_arg) (enc : list N) : Prop :=
  limit_ok (m_env X) /\ idna_ok (m_env X) /\
  enc_ok (m_env X) (normalize_encoding (m_env X) enc) /\ is_pystr s /\ short s /\ base_parsed (m_env X) base /\ (forall t, base = BStr t -> short t).

(** ICU of the example environment; a ValidityState is passed *)
Definition ascii_menv : menv := {| m_env := with_validity ascii_env true; m_print := fun _ => false; m_icu_code := fun _ _ => $"<ErrorCode(<U_MEMORY_ALLOCATION_ERROR: 7>)>" |}.
Lemma ascii_idna b : idna_ok (with_validity ascii_env b).
Proof. destruct ascii_env_idna as [H1 H2]. constructor; [exact H1|exact H2]. Qed.
Lemma ascii_call s base : is_pystr s -> (length s < 4000)%nat -> match base with BNone => True | BStr t => is_pystr t /\ (length t < 4000)%nat | BRec _ => False end ->
  message_call ascii_menv s base UTF8.
Proof.
  assert (SH : forall t : list N, (length t < 4000)%nat -> short t).
  { intros t L. unfold short. assert (P : N.of_nat (length t) < 4000) by lia. eapply N.lt_trans; [exact P|]. vm_compute. reflexivity. }
  intros H1 H2 H3. split; [exact ascii_env_limit|]. split; [apply ascii_idna|].
  split; [apply enc_utf8; vm_compute; reflexivity|]. split; [exact H1|]. split; [exact (SH s H2)|]. destruct base as [|t|u]; [split; [exact I|discriminate]|destruct H3 as (H3 & H4); split; [exact H3|]; intros t' T; injection T as <-; exact (SH t H4)|contradiction].
Qed.

(** C109: the messages do not influence the result. *)
Theorem C109_same_result :
  forall X s base enc, message_call X s base enc ->
  untold (snd (m_parse_url X s base enc)) = snd (parse_url (m_env X) s base enc) /\
  map e_type (fst (m_parse_url X s base enc)) = map verr_name (fst (parse_url (m_env X) s base enc)).
Proof. intros X s base enc (H1 & H2 & H4 & H5 & H6 & H7 & H8). exact (parse_url_same X H1 H2 s base enc H4 H5 H6 H7 H8). Qed.
Print Assumptions C109_same_result.
Example C109_case :
  message_call ascii_menv $"c|/^" (BStr $"file:") UTF8 /\
  map e_type (fst (m_parse_url ascii_menv $"c|/^" (BStr $"file:") UTF8)) =
    [$"special-scheme-missing-following-solidus"; $"file-invalid-Windows-drive-letter"; $"invalid-URL-unit"; $"invalid-URL-unit"] /\
  exists u, snd (m_parse_url ascii_menv $"c|/^" (BStr $"file:") UTF8) = MOk u /\ href u = $"file:///c:/^".
Proof.
  split; [apply ascii_call; [repeat constructor; discriminate|cbn; lia|cbv beta iota; split; [repeat constructor; discriminate|cbn; lia]]|]. split; [vm_compute; reflexivity|]. eexists. split; vm_compute; reflexivity.
Qed.

(** C110: every message belongs to its validation error, quotes values that are in the input and as the
    text says, and names the position at which the quoted input has them. *)
Theorem C110_messages_true :
  forall X s base enc, message_call X s base enc ->
  Forall2 (tells (call_message (m_env X) (m_icu_code X) base enc s) (unquoted (has_validity (m_env X)) (call_unquotable (m_env X) base s)))
    (fst (m_parse_url X s base enc)) (fst (parse_url (m_env X) s base enc)).
Proof. intros X s base enc (H1 & H2 & H4 & H5 & H6 & H7 & H8). exact (proj1 (parse_url_sim X H1 H2 s base enc H4 H5 H6 H7 H8)). Qed.
Print Assumptions C110_messages_true.
(** the example of the class ValidityState (parse.py:2990-3010) *)
Example C110_case : message_call ascii_menv $"https://example/%?%#%" BNone UTF8 /\
  map e_text (fst (m_parse_url ascii_menv $"https://example/%?%#%" BNone UTF8)) =
    [Some $"invalid-URL-unit: incorrect percent encoding is found: '%?%' in 'https://example/%?%#%' at position 16";
     Some $"invalid-URL-unit: incorrect percent encoding is found: '%#%' in 'https://example/%?%#%' at position 18";
     Some $"invalid-URL-unit: incorrect percent encoding is found: '%' in 'https://example/%?%#%' at position 20"].
Proof. split; [apply ascii_call; [repeat constructor; discriminate|cbn; lia|exact I]|]. vm_compute. reflexivity. Qed.
Example C110_case_many : map e_text (fst (m_parse_url ascii_menv ($"  ht" ++ 9 :: $"tp:\u@0x7f.999/\x") BNone UTF8)) =
    [Some $"invalid-URL-unit: remove any leading and trailing C0 control or space from '  ht\ttp:\\u@0x7f.999/\\x'";
     Some $"invalid-URL-unit: remove all ASCII tab or newline from 'ht\ttp:\\u@0x7f.999/\\x'";
     Some ($"special-scheme-missing-following-solidus: input" ++ 8217 :: $"s scheme is not followed by '//': '\\u' in 'http:\\u@0x7f.999/\\x' at position 5");
     Some ($"special-scheme-missing-following-solidus: input" ++ 8217 :: $"s scheme is not followed by '//': U+005C (\) in 'http:\\u@0x7f.999/\\x' at position 5");
     Some $"invalid-credentials: input includes credentials: 'http:\\u@0x7f.999/\\x' at position 7";
     Some $"IPv4-non-decimal-part: IPv4 address contains numbers expressed using hexadecimal or octal digits: '0x7f' in '0x7f.999'";
     Some $"IPv4-out-of-range-part: IPv4 address part exceeds 255: '0x7f.999' ([127, 999])";
     Some $"invalid-reverse-solidus: URL has a special scheme and it uses U+005C (\) instead of U+002F (/): 'http:\\u@0x7f.999/\\x' at position 17"].
Proof. vm_compute. reflexivity. Qed.

(** C111: the text of a URLParseError is that of the last validation error without the name. *)
Theorem C111_exception_text :
  forall X s base enc e text, message_call X s base enc -> snd (m_parse_url X s base enc) = MErr e text ->
  blames (call_message (m_env X) (m_icu_code X) base enc s) (fst (m_parse_url X s base enc)) e text.
Proof. intros X s base enc e text (H1 & H2 & H4 & H5 & H6 & H7 & H8). exact (parse_url_blames X H1 H2 s base enc e text H4 H5 H6 H7 H8). Qed.
Print Assumptions C111_exception_text.
Example C111_case : message_call ascii_menv $"http://h:65536" BNone UTF8 /\
  snd (m_parse_url ascii_menv $"http://h:65536" BNone UTF8) = MErr EURLParse (Some ($"input" ++ 8217 :: $"s port is too big: 65536 in 'http://h:65536'")) /\
  snd (m_parse_url ascii_menv (233 :: $"^") (BStr $"http://a/") UTF8) <> MErr EIDNA None /\
  snd (m_parse_url ascii_menv ($"//" ++ 233 :: $"^") (BStr $"http://a/") UTF8) = MErr EIDNA (Some ($"Unicode ToASCII failed: domain='\xe9^' errors=0x0001 error_code=<ErrorCode(<U_MEMORY_ALLOCATION_ERROR: 7>)>")) /\
  map e_text (fst (m_parse_url ascii_menv ($"//" ++ 233 :: $"^") (BStr $"http://a/") UTF8)) = [Some ($"domain-to-ASCII: Unicode ToASCII failed: domain='\xe9^' errors=0x0001 error_code=<ErrorCode(<U_MEMORY_ALLOCATION_ERROR: 7>)>")].
Proof. split; [apply ascii_call; [repeat constructor; discriminate|cbn; lia|exact I]|]. split; [vm_compute; reflexivity|]. split; [vm_compute; discriminate|]. split; vm_compute; reflexivity. Qed.

(** C112: every recorded validation error has a description. False: a number above the int/str limit
    cannot be quoted; the error stays without text. *)
Definition low_menv : menv := {| m_env := with_validity low_env true; m_print := fun _ => false; m_icu_code := fun _ _ => $"<ErrorCode(<U_MEMORY_ALLOCATION_ERROR: 7>)>" |}.
Theorem C112_described_refuted :
  exists s, snd (m_parse_url low_menv s BNone UTF8) = MErr EValue None /\
  fst (m_parse_url low_menv s BNone UTF8) = [mkentry INFO $"IPv4-non-decimal-part" (Some ($"IPv4-non-decimal-part: IPv4 address contains numbers expressed using hexadecimal or octal digits: '0x" ++ repeat 102 540 ++ $"' in '0x" ++ repeat 102 540 ++ $"'"));
    mkentry INFO $"IPv4-out-of-range-part" None].
Proof. exists ($"http://0x" ++ repeat 102 540). split; vm_compute; reflexivity. Qed.
Print Assumptions C112_described_refuted.
(** The exception: addresses with numbers of more digits than the limit. *)
Theorem C112_described_partial :
  forall X s base enc, message_call X s base enc -> ~ call_unquotable (m_env X) base s ->
  Forall (fun en => e_text en <> None) (fst (m_parse_url X s base enc)).
Proof. intros X s base enc (H1 & H2 & H4 & H5 & H6 & H7 & H8). exact (parse_url_texts X H1 H2 s base enc H4 H5 H6 H7 H8). Qed.
Print Assumptions C112_described_partial.

(** C113: the position in a message is an index into the string that the caller passed. False: it is
    one into the string that is left after stripping and removing tabs and newlines. *)
Theorem C113_position_refuted :
  exists s p c, message_call ascii_menv s BNone UTF8 /\
  In (Some ($"invalid-URL-unit: code point is found that is not a URL unit: U+005E (^) in 'http://h/^' at position 9")) (map e_text (fst (m_parse_url ascii_menv s BNone UTF8))) /\
  nth_error s p = Some c /\ p = 9%nat /\ c <> 94.
Proof.
  exists $" http://h/^", 9%nat, 47. split; [apply ascii_call; [repeat constructor; discriminate|cbn; lia|exact I]|]. split; [vm_compute; right; left; reflexivity|]. split; [reflexivity|]. split; [reflexivity|discriminate].
Qed.
Print Assumptions C113_position_refuted.
(** True for strings that are not changed by that: all messages are about the string itself. *)
Theorem C113_position_partial :
  forall X s b enc, let base := match b with Some u => BRec u | None => BNone end in
  message_call X s base enc -> std_input s = s ->
  Forall2 (tells (url_message (m_env X) (m_icu_code X) b s) (unquoted (has_validity (m_env X)) (unquotable (m_env X) s))) (fst (m_parse_url X s base enc)) (fst (parse_url (m_env X) s base enc)).
Proof.
  intros X s b enc base (H1 & H2 & H4 & H5 & H6 & H7 & H8) H9.
  exact (parse_url_clean X H1 H2 s b enc H4 H5 H6 ltac:(intros u ->; exact H7) H9).
Qed.
Print Assumptions C113_position_partial.
Example C113_case : message_call ascii_menv $"http://h/^%/" BNone UTF8 /\ std_input $"http://h/^%/" = $"http://h/^%/" /\
  map e_text (fst (m_parse_url ascii_menv $"http://h/^%/" BNone UTF8)) =
    [Some $"invalid-URL-unit: code point is found that is not a URL unit: U+005E (^) in 'http://h/^%/' at position 9";
     Some $"invalid-URL-unit: incorrect percent encoding is found: '%/' in 'http://h/^%/' at position 10"].
Proof. split; [apply ascii_call; [repeat constructor; discriminate|cbn; lia|exact I]|]. split; vm_compute; reflexivity. Qed.

(** C114: the message "credentials are empty" comes only if there are none. False: the host is missing
    then (the URL Standard has host-missing here). *)
Theorem C114_credentials_refuted :
  exists s, message_call ascii_menv s BNone UTF8 /\ s = $"http://user:pw@/" /\
  fst (m_parse_url ascii_menv s BNone UTF8) =
    [mkentry INFO $"invalid-credentials" (Some $"invalid-credentials: input includes credentials: 'http://user:pw@/' at position 14");
     mkentry ERROR $"invalid-credentials" (Some $"invalid-credentials: credentials are empty: 'http://user:pw@/'")] /\
  snd (m_parse_url ascii_menv s BNone UTF8) = MErr EURLParse (Some $"credentials are empty: 'http://user:pw@/'").
Proof.
  exists $"http://user:pw@/". split; [apply ascii_call; [repeat constructor; discriminate|cbn; lia|exact I]|]. split; [reflexivity|]. split; vm_compute; reflexivity.
Qed.
Print Assumptions C114_credentials_refuted.
(** What it does mean: after an "@" the authority ends, with nothing left for the host. *)
Theorem C114_credentials_partial :
  forall X s base enc lv q, message_call X s base enc ->
  In (mkentry lv $"invalid-credentials" (Some ($"invalid-credentials: credentials are empty: " ++ q))) (fst (m_parse_url X s base enc)) ->
  exists x p, (x = s \/ base = BStr x) /\ nth_error (std_input x) p = Some 64 /\ forall c, nth_error (std_input x) (S p) = Some c -> In c $"/?#\".
Proof. intros X s base enc lv q (H1 & H2 & H4 & H5 & H6 & H7 & H8). exact (parse_url_credentials lv X s base enc H1 H2 H4 H5 H6 H7 H8 q). Qed.
Print Assumptions C114_credentials_partial.
(** And it does come there: if the authority of an absolute URL ends right after an "@", parsing fails
    with exactly this message, whatever stands before the "@". *)
Theorem C114_always :
  forall X s base enc sch a r, message_call X s base enc -> usable (m_env X) base enc ->
  std_input s = sch ++ $"://" ++ a ++ $"@" ++ r -> std_scheme sch = true -> std_lower sch <> $"file" ->
  (forall c, In c a -> ~ In c $"/?#" /\ (std_special (std_lower sch) -> c <> 92)) ->
  (forall c t, r = c :: t -> In c $"/?#" \/ (std_special (std_lower sch) /\ c = 92)) ->
  exists l m, spells [Txt $"credentials are empty: "; Lit (PStr (std_input s))] m /\
    m_parse_url X s base enc = (l ++ [mkentry ERROR $"invalid-credentials" (Some ($"invalid-credentials: " ++ m))], MErr EURLParse (Some m)).
Proof.
  intros X s base enc sch a r (H1 & H2 & H4 & H5 & H6 & H7 & H8) B Q S F A R.
  apply (url_told X H1 H2 s base enc sch a r H4 H5 H6 H7 H8 B Q S F); [intros c Hc; rewrite special_spec; exact (A c Hc)|intros c t Hc; rewrite special_spec; exact (R c t Hc)].
Qed.
Print Assumptions C114_always.
(** The same for a reference that starts with "//". *)
Theorem C114_always_relative :
  forall X s base enc b l a r, message_call X s base enc -> base_record (m_env X) base enc b -> path b = PList l -> scheme b <> $"file" ->
  std_input s = $"//" ++ a ++ $"@" ++ r ->
  (forall c, In c a -> ~ In c $"/?#" /\ (std_special (scheme b) -> c <> 92)) ->
  (forall c t, r = c :: t -> In c $"/?#" \/ (std_special (scheme b) /\ c = 92)) ->
  exists l m, spells [Txt $"credentials are empty: "; Lit (PStr (std_input s))] m /\
    m_parse_url X s base enc = (l ++ [mkentry ERROR $"invalid-credentials" (Some ($"invalid-credentials: " ++ m))], MErr EURLParse (Some m)).
Proof.
  intros X s base enc b l a r (H1 & H2 & H4 & H5 & H6 & H7 & H8) B P F Q A R.
  apply (relative_url_told X H1 H2 s base enc b a r H4 H5 H6 H7 H8 B); [unfold has_opaque_path; now rewrite P|exact Q|exact F|intros c Hc; rewrite special_spec; exact (A c Hc)|intros c t Hc; rewrite special_spec; exact (R c t Hc)].
Qed.
Print Assumptions C114_always_relative.
Example C114_always_relative_case :
  message_call ascii_menv $"//u@\x" (BStr $"http://h/") UTF8 /\ std_input $"//u@\x" = $"//" ++ $"u" ++ $"@" ++ $"\x" /\
  (exists b l, base_record (m_env ascii_menv) (BStr $"http://h/") UTF8 b /\ path b = PList l /\ scheme b = $"http") /\
  snd (m_parse_url ascii_menv $"//u@\x" (BStr $"http://h/") UTF8) = MErr EURLParse (Some $"credentials are empty: '//u@\\x'").
Proof.
  split; [apply ascii_call; [repeat constructor; discriminate|cbn; lia|cbv beta iota; split; [repeat constructor; discriminate|cbn; lia]]|]. split; [vm_compute; reflexivity|].
  split; [|vm_compute; reflexivity]. eexists _, _. split; [right; eexists; split; [reflexivity|vm_compute; reflexivity]|]. split; vm_compute; reflexivity.
Qed.
Example C114_always_case :
  let s := $" foo://a@b:c\@?d" in message_call ascii_menv s BNone UTF8 /\ std_input s = $"foo" ++ $"://" ++ $"a@b:c\" ++ $"@" ++ $"?d" /\
  std_scheme $"foo" = true /\ std_lower $"foo" <> $"file" /\ ~ std_special (std_lower $"foo") /\ (forall c, In c $"a@b:c\" -> ~ In c $"/?#") /\
  snd (m_parse_url ascii_menv s BNone UTF8) = MErr EURLParse (Some $"credentials are empty: 'foo://a@b:c\\@?d'").
Proof.
  cbv zeta. split; [apply ascii_call; [repeat constructor; discriminate|cbn; lia|exact I]|]. split; [vm_compute; reflexivity|]. split; [reflexivity|]. split; [discriminate|]. split; [rewrite <- special_spec; discriminate|].
  split; [|vm_compute; reflexivity]. intros c H K. cbn in H, K. lia.
Qed.
