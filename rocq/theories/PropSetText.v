(** C119-C122: the texts that URL objects log and raise. *)
From Coq Require Import Ascii String.
From Coq Require Import NArith ZArith Bool Arith Lia ZifyBool ZifyN ZifyNat List.
From Verif Require Import PyStr PyInt Codec Env HostModel UrlRecord Parser SearchParams UrlApi Repr Message MsgHost MsgParser MsgValidators MsgApi ExampleEnv SpecText SpecHost.
From Verif Require Import QuoteProofs IPv4Proofs HostProofs WfProofs UrlProps ValidatorProofs IntGrammar ObjProofs MsgProofs MsgParserProofs MsgCallProofs MsgValidatorProofs MsgApiProofs PropMessages PropValidity.
From Verif Require Import SpecPyInt SpecUrl SpecParser SpecReports SpecRepr SpecIdna SpecMessages SpecValidity SpecSetText.
Import ListNotations.
Open Scope N_scope.

(** assignments to an attribute of any URL object: as for parse_url, the value is a string and not too long *)
Definition set_value (s : setter) : list N :=
  match s with
  | SetHash v | SetHost v | SetHostname v | SetHref v | SetPassword v | SetPathname v | SetPort v | SetProtocol v | SetSearch v | SetUsername v => v
  end.
Definition set_call (X : menv) (s : setter) : Prop :=
  limit_ok (m_env X) /\ idna_ok (m_env X) /\ is_pystr (set_value s) /\ short (set_value s ++ [58]).
Lemma call_text X s : set_call X s -> text_ok s.
Proof.
  intros (_ & _ & H1 & H2) x H.
  assert (G : is_pystr x /\ (length x <= length (set_value s ++ [58%N]))%nat).
  { rewrite app_length. cbn [length]. destruct H as [H| ->]; [|split; [exact H1|cbn [set_value]; lia]].
    destruct H; cbn [set_value] in *; rewrite ?app_length; cbn [length]; (split; [|lia]); try exact H1; try (inversion H1; assumption).
    apply Forall_app. split; [exact H1|]. repeat constructor; discriminate. }
  destruct G as (G1 & G2). split; [exact G1|]. unfold short in *. lia.
Qed.
Lemma plain_set s : is_pystr (set_value s) -> (length (set_value s) < 4000)%nat -> set_call plain_menv s.
Proof.
  intros H1 H2. split; [exact ascii_env_limit|]. split; [exact ascii_env_idna|]. split; [exact H1|].
  unfold short. assert (P : N.of_nat (length (set_value s ++ [58])) < 4001) by (rewrite app_length; cbn [length]; lia). eapply N.lt_trans; [exact P|]. vm_compute. reflexivity.
Qed.

Lemma idna_back E b : idna_ok (with_validity E b) -> idna_ok E.
Proof. intros [A B]. constructor; [exact A|exact B]. Qed.

(** C119: the messages do not influence what setters and the constructor do. *)
Theorem C119_same_setters :
  forall X s o, set_call X s ->
  fst (snd (m_set_attr X s o)) = fst (set_attr (m_env X) s o) /\ untold (snd (snd (m_set_attr X s o))) = snd (set_attr (m_env X) s o).
Proof.
  intros X s o H. pose proof (call_text X s H) as T. destruct H as (H1 & H2 & _). destruct (set_matches X H1 H2 s o T) as (_ & M1 & M2). split; [exact M1|].
  destruct (snd (snd (m_set_attr X s o))) as [[]|e t], (snd (set_attr (m_env X) s o)) as [[]|e']; try contradiction; [reflexivity|]. destruct M2 as (-> & _). reflexivity.
Qed.
Print Assumptions C119_same_setters.
Theorem C119_same_constructor :
  forall X s base, message_call (unchecked X) s base UTF8 -> untold (snd (m_url_new X s base)) = url_new (m_env X) s base.
Proof.
  intros X s base (H1 & H2 & H4 & H5 & H6 & H7 & H8). exact (url_new_same X s base H1 (idna_back _ _ H2) H5 H6 H7 H8 H4).
Qed.
Print Assumptions C119_same_constructor.
Example C119_case :
  set_call plain_menv (SetHost $"b.0x7f:99999") /\
  (forall u, snd (m_url_new plain_menv $"http://u@a:1/" BNone) = MOk u ->
   get_href (fst (snd (m_set_attr plain_menv (SetHost $"b:2") u))) = $"http://u@b:2/" /\
   untold (snd (snd (m_set_attr plain_menv (SetHost $"b:99999") u))) = Err EURLParse).
Proof.
  split; [apply plain_set; [repeat constructor; discriminate|cbn; lia]|]. intros u H.
  assert (D : snd (m_url_new plain_menv $"http://u@a:1/" BNone) = MOk (mkobj (mkurl $"http" $"u" [] (Some (HStr $"a")) (Some 1) (PList [[]]) None None) [])) by (vm_compute; reflexivity).
  rewrite D in H. injection H as <-. split; vm_compute; reflexivity.
Qed.

(** C120: what a setter logs: only the errors that its part of a URL can have, with texts that are true
    of the value that was set. *)
Theorem C120_setter_messages :
  forall X s o, set_call X s -> Forall (set_entry (m_env X) (m_icu_code X) s) (fst (m_set_attr X s o)).
Proof. intros X s o H. pose proof (call_text X s H) as T. destruct H as (H1 & H2 & _). exact (proj1 (set_matches X H1 H2 s o T)). Qed.
Print Assumptions C120_setter_messages.
(** an object for the examples, and the texts of a log *)
Definition demo (s : list N) : urlobj := match snd (m_url_new plain_menv s BNone) with MOk o => o | MErr _ _ => mkobj new_url [] end.
Definition said (s : setter) (href : list N) : list (option (list N)) := map e_text (fst (m_set_attr plain_menv s (demo href))).
Example C120_case :
  set_call plain_menv (SetHost $"b:99999") /\
  said (SetHost $"b:99999") $"http://a/" = [Some ($"port-out-of-range: input" ++ 8217 :: $"s port is too big: 99999 in 'b:99999'")] /\
  said (SetHostname $"1.2.0x3") $"http://a/" = [Some $"IPv4-non-decimal-part: IPv4 address contains numbers expressed using hexadecimal or octal digits: '0x3' in '1.2.0x3'"] /\
  said (SetHostname []) $"http://a/" = [Some $"host-missing: input has a special scheme, but does not contain a host: ''"] /\
  said (SetPathname $"\%") $"http://a/" =
    [Some $"invalid-reverse-solidus: URL has a special scheme and it uses U+005C (\) instead of U+002F (/): '\\%' at position 0";
     Some $"invalid-URL-unit: incorrect percent encoding is found: '%' in '\\%' at position 1"] /\
  said (SetHash $"#x^") $"http://a/" = [Some $"invalid-URL-unit: code point is found that is not a URL unit: U+005E (^) in 'x^' at position 1"] /\
  said (SetProtocol (9 :: $"https")) $"http://a/" = [Some $"invalid-URL-unit: remove all ASCII tab or newline from '\thttps:'"] /\
  said (SetUsername $"^") $"http://a/" = [].
Proof. split; [apply plain_set; [repeat constructor; discriminate|cbn; lia]|]. do 6 (split; [vm_compute; reflexivity|]). vm_compute. reflexivity. Qed.

(** C121: an exception of a setter says what the last logged validation error says. False: the protocol
    setter raises URLParseError without having logged an error. *)
Theorem C121_setter_exception_refuted :
  exists X s o, set_call X s /\ fst (m_set_attr X s o) = [] /\
  snd (snd (m_set_attr X s o)) = MErr EURLParse (Some ($"input" ++ 8217 :: $"s scheme does not end with U+003A (:): 'a b:'")).
Proof.
  exists plain_menv, (SetProtocol $"a b"), (demo $"http://a/"). split; [apply plain_set; [repeat constructor; discriminate|cbn; lia]|]. split; vm_compute; reflexivity.
Qed.
Print Assumptions C121_setter_exception_refuted.
(** The exception: two texts of the protocol setter, which quote its value. *)
Theorem C121_setter_exception_partial :
  forall X s o e text, set_call X s -> snd (snd (m_set_attr X s o)) = MErr e text ->
  set_blames (m_env X) (m_icu_code X) s (fst (m_set_attr X s o)) e text.
Proof.
  intros X s o e text H R. pose proof (call_text X s H) as T. destruct H as (H1 & H2 & _). destruct (set_matches X H1 H2 s o T) as (_ & _ & M). rewrite R in M.
  destruct (snd (set_attr (m_env X) s o)) as [a|e']; [contradiction|]. exact (proj2 M).
Qed.
Print Assumptions C121_setter_exception_partial.
Example C121_case :
  set_call plain_menv (SetHost $"b:99999") /\
  snd (snd (m_set_attr plain_menv (SetHost $"b:99999") (demo $"http://a/"))) = MErr EURLParse (Some ($"input" ++ 8217 :: $"s port is too big: 99999 in 'b:99999'")) /\
  snd (snd (m_set_attr plain_menv (SetHref $"x") (demo $"http://a/"))) =
    MErr EURLParse (Some $"input is missing a scheme, because it does not begin with an ASCII alpha, and either no base URL was provided or the base URL cannot be used as a base URL because it has an opaque path: input='x' base=None").
Proof. split; [apply plain_set; [repeat constructor; discriminate|cbn; lia]|]. split; vm_compute; reflexivity. Qed.

(** C122: URL.can_parse(s, base, validity=v) answers as without texts and leaves [v] in order: to every
    type a description that is true of the input, count and flag right; False comes with an entry.
    False as it stands: a number above the int/str limit cannot be quoted. *)
Definition low_plain : menv := {| m_env := low_env; m_print := fun _ => false; m_icu_code := fun _ _ => $"<ErrorCode(<U_MEMORY_ALLOCATION_ERROR: 7>)>" |}.
Theorem C122_can_parse_validity_refuted :
  exists s, fst (m_can_parse low_plain s BNone None) = MErr EValue None /\
  length (ms_types (snd (m_can_parse low_plain s BNone None))) = 2%nat /\ length (ms_descs (snd (m_can_parse low_plain s BNone None))) = 1%nat.
Proof. exists ($"http://0x" ++ repeat 102 540). split; [vm_compute; reflexivity|]. split; vm_compute; reflexivity. Qed.
Print Assumptions C122_can_parse_validity_refuted.
Theorem C122_can_parse_validity_partial :
  forall X s base v, message_call (checking X) s base UTF8 ->
  untold (fst (m_can_parse X s base v)) = can_parse (m_env X) s base /\
  (~ call_unquotable (with_validity (m_env X) true) base s ->
     in_order (call_message (with_validity (m_env X) true) (m_icu_code X) base UTF8 s) (snd (m_can_parse X s base v))) /\
  (fst (m_can_parse X s base v) = MOk false -> ms_valid (snd (m_can_parse X s base v)) = false /\ ms_types (snd (m_can_parse X s base v)) <> []).
Proof. intros X s base v (H1 & H2 & H4 & H5 & H6 & H7 & H8). exact (can_parse_sim X s base H1 (idna_back _ _ H2) H5 H6 H7 H8 H4 v). Qed.
Print Assumptions C122_can_parse_validity_partial.
Example C122_case : message_call (checking plain_menv) $"//a b" (BStr $"http:\\x") UTF8 /\
  fst (m_can_parse plain_menv $"//a b" (BStr $"http:\\x") (Some (mkms false [$"old"] [$"old"] 1))) = MOk false /\
  ms_descs (snd (m_can_parse plain_menv $"//a b" (BStr $"http:\\x") (Some (mkms false [$"old"] [$"old"] 1)))) <> [] /\
  fst (m_can_parse plain_menv $"http://a/^" BNone None) = MOk true /\
  ms_descs (snd (m_can_parse plain_menv $"http://a/^" BNone None)) = [$"invalid-URL-unit: code point is found that is not a URL unit: U+005E (^) in 'http://a/^' at position 9"].
Proof.
  split; [apply ascii_call; [repeat constructor; discriminate|cbn; lia|cbv beta iota; split; [repeat constructor; discriminate|cbn; lia]]|].
  split; [vm_compute; reflexivity|]. split; [vm_compute; discriminate|]. split; vm_compute; reflexivity.
Qed.
