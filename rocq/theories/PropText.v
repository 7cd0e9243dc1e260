(** Property theorems C01-C10 and C12: text layer. *)
From Coq Require Import Ascii String.
From Coq Require Import NArith Bool List.
From Verif Require Import PyStr PyInt Codec SpecText CodecProofs QuoteProofs PyIntProofs LegacyProofs TextExact.
Import ListNotations.
Open Scope N_scope.

(** C01 *)
Theorem C01_utf8_round_trip :
  (forall s, is_pystr s -> utf8_decode (utf8_encode s) = scalar_value_string s) /\
  (forall s, is_pystr s -> surrogate_free s -> utf8_decode (utf8_encode s) = s).
Proof. exact (conj utf8_round_trip utf8_round_trip_id). Qed.
Print Assumptions C01_utf8_round_trip.
Example C01_case : is_pystr [97; 55357; 56832; 56832; 8364; 128512] /\
  utf8_decode (utf8_encode [97; 55357; 56832; 56832; 8364; 128512])
  = [97; 128512; 65533; 8364; 128512].
Proof. split; [repeat constructor; discriminate | reflexivity]. Qed.
Example C01_case_free : is_pystr [97; 8364; 128512] /\ surrogate_free [97; 8364; 128512].
Proof. split; repeat constructor; try discriminate; intros [H1 H2]; first [now apply H1 | now apply H2]. Qed.

(** C02 *)
Theorem C02_utf8_decode_standard :
  (forall b, utf8_decode b = std_utf8_decode b) /\
  (forall b, is_bytes b -> surrogate_free (utf8_decode b)).
Proof. exact (conj utf8_decode_spec utf8_decode_nosur). Qed.
Print Assumptions C02_utf8_decode_standard.
Example C02_case : std_utf8_decode [240; 159; 152; 128; 237; 160; 128; 226; 130; 65]
  = [128512; 65533; 65533; 65533; 65533; 65].
Proof. reflexivity. Qed.

(** C03 *)
Theorem C03_percent_decode_standard :
  forall s, is_pystr s ->
    string_percent_decode s = std_percent_decode (std_utf8_encode (scalar_value_string s)).
Proof. exact string_percent_decode_spec. Qed.
Print Assumptions C03_percent_decode_standard.
Example C03_case : std_percent_decode $"%41%4g%%42%e" = $"A%4g%B%e".
Proof. reflexivity. Qed.

(** C04 *)
Theorem C04_percent_encode_alphabet :
  (forall s safe plus, exists out, string_percent_encode utf8_enc1 s safe plus = Some out) /\
  (forall s safe plus, is_pystr s ->
    percent_encoded
      (fun c => c < 128 /\ (In c (ALWAYS_SAFE ++ safe) \/ (plus = true /\ c = 43)))
      (utf8_percent_encode s safe plus)).
Proof.
  exact (conj (fun s safe plus => ex_intro _ _ (utf8_percent_encode_total s safe plus))
              utf8_percent_encode_alphabet).
Qed.
Print Assumptions C04_percent_encode_alphabet.
Example C04_case : utf8_percent_encode [233; 47; 32; 126] $"/" true = $"%C3%A9/+~".
Proof. reflexivity. Qed.

(** C05 *)
Theorem C05_encode_then_decode :
  forall s safe, is_pystr s -> mem 37 safe = false ->
    string_percent_decode (utf8_percent_encode s safe false) = utf8_encode s.
Proof. exact encode_decode_id. Qed.
Print Assumptions C05_encode_then_decode.
Example C05_case : mem 37 SAFE_COMPONENT = false /\
  string_percent_decode (utf8_percent_encode $"a%41/" SAFE_COMPONENT false) = $"a%41/".
Proof. split; reflexivity. Qed.

(** C06 *)
Theorem C06_encode_idempotent :
  forall s safe, is_pystr s -> mem 37 safe = true ->
    utf8_percent_encode (utf8_percent_encode s safe false) safe false
    = utf8_percent_encode s safe false.
Proof. exact encode_idempotent. Qed.
Print Assumptions C06_encode_idempotent.
Example C06_case :
  forallb (mem 37) [SAFE_C0_CONTROL; SAFE_FRAGMENT; SAFE_QUERY; SAFE_SPECIAL_QUERY; SAFE_PATH; SAFE_USERINFO] = true
  /\ utf8_percent_encode [37; 52; 49; 233; 60] SAFE_USERINFO false = $"%41%C3%A9%3C".
Proof. split; reflexivity. Qed.

(** C07 *)
Theorem C07_percent_encode_sets :
  forall s plus, is_pystr s ->
    utf8_percent_encode s SAFE_C0_CONTROL plus = std_percent_encode c0_control_set plus s /\
    utf8_percent_encode s SAFE_FRAGMENT plus = std_percent_encode fragment_set plus s /\
    utf8_percent_encode s SAFE_QUERY plus = std_percent_encode query_set plus s /\
    utf8_percent_encode s SAFE_SPECIAL_QUERY plus = std_percent_encode special_query_set plus s /\
    utf8_percent_encode s SAFE_PATH plus = std_percent_encode path_set plus s /\
    utf8_percent_encode s SAFE_USERINFO plus = std_percent_encode userinfo_set plus s /\
    utf8_percent_encode s SAFE_COMPONENT plus = std_percent_encode component_set plus s.
Proof. exact encode_sets_conform. Qed.
Print Assumptions C07_percent_encode_sets.
Example C07_case : std_percent_encode userinfo_set false (9 :: $"a b:c@d|" ++ [233; 55296])
  = $"%09a%20b%3Ac%40d%7C%C3%A9%EF%BF%BD".
Proof. reflexivity. Qed.

(** C08: false of the code, because urllib never escapes '~'. *)
Theorem C08_urlencode_refuted :
  exists l, pystr_pairs l /\ urlencode l <> std_urlencoded_serialize l.
Proof. exact urlencode_tilde. Qed.
Print Assumptions C08_urlencode_refuted.
(** '~' is the only difference. *)
Theorem C08_urlencode_partial :
  (forall l, pystr_pairs l ->
    Forall (fun p => mem 126 (fst p) = false /\ mem 126 (snd p) = false) l ->
    urlencode l = std_urlencoded_serialize l) /\
  (forall l, pystr_pairs l ->
    urlencode l = std_serialize_with (fun c => urlencoded_set c && negb (c =? 126)) l).
Proof. exact (conj urlencode_conforms urlencode_no_tilde_set). Qed.
Print Assumptions C08_urlencode_partial.
Theorem C08_urlencode_exact :
  forall l, pystr_pairs l ->
  (urlencode l = std_urlencoded_serialize l <-> Forall (fun p => ~ In 126 (fst p) /\ ~ In 126 (snd p)) l).
Proof. exact urlencode_exact. Qed.
Print Assumptions C08_urlencode_exact.
Example C08_case : urlencode [($"a b", $"1&2"); ([], [233])] = $"a+b=1%262&=%C3%A9"
  /\ std_urlencoded_serialize [($"a b", $"1&2"); ([], [233])] = $"a+b=1%262&=%C3%A9"
  /\ std_urlencoded_serialize [($"~", [])] = $"%7E=".
Proof. repeat split. Qed.

(** C09 *)
Theorem C09_urlencode_round_trip :
  (forall l, pystr_pairs l ->
     Forall (fun p => surrogate_free (fst p) /\ surrogate_free (snd p)) l ->
     parse_qsl (urlencode l) = l) /\
  (forall l, pystr_pairs l ->
     parse_qsl (urlencode l)
     = map (fun p => (scalar_value_string (fst p), scalar_value_string (snd p))) l).
Proof. exact (conj parse_qsl_urlencode_id parse_qsl_urlencode). Qed.
Print Assumptions C09_urlencode_round_trip.
Example C09_case :
  let l := [([], []); ($"a", $"b=c&d+e"); ($"a", [128512]); ([], $"%41")] in
  parse_qsl (urlencode l) = l.
Proof. reflexivity. Qed.

(** C10 *)
Theorem C10_parse_qsl_standard : forall b, parse_qsl b = std_urlencoded_parse b.
Proof. exact parse_qsl_spec. Qed.
Print Assumptions C10_parse_qsl_standard.
Example C10_case : std_urlencoded_parse $"&&a=b=c&=&%2B+%&x" =
  [($"a", $"b=c"); ([], []); ($"+ %", []); ($"x", [])].
Proof. reflexivity. Qed.

(** C12 *)
Theorem C12_legacy_encoding :
  forall enc s safe plus, ascii_compatible enc -> is_pystr s ->
    exists pieces, string_percent_encode enc s safe plus = Some (concat pieces)
      /\ Forall2 (legacy_piece enc safe plus) (scalar_value_string s) pieces
      /\ Forall (fun c => c < 128) (concat pieces).
Proof. exact legacy_spec. Qed.
Print Assumptions C12_legacy_encoding.
Example C12_case : ascii_compatible latin1 /\
  string_percent_encode latin1 [233; 8364; 32] SAFE_QUERY true = Some $"%E9%26%238364%3B+".
Proof. exact (conj latin1_ok eq_refl). Qed.
