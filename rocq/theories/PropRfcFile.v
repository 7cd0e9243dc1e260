(** C100 for file URLs: RFC 3986 holds where no drive letter is involved. *)
From Coq Require Import Ascii String.
From Coq Require Import NArith ZArith Bool Arith Lia List.
From Verif Require Import PyStr PyInt Codec Env HostModel UrlRecord Parser SpecText SpecHost.
From Verif Require Import LegacyProofs IPv4Proofs HostProofs WfProofs RoundTrip UrlProps ExampleEnv SuffixProofs RefLaws RfcFileProofs PropParser PropReference PropFileReference.
From Verif Require Import SpecUrl SpecParser SpecReference SpecFileReference SpecRfc.
Import ListNotations.
Open Scope N_scope.

Theorem C100_file :
  forall E b l rp q f enc, enc_ok E (normalize_encoding E enc) -> parsed E b -> path b = PList l -> scheme b = $"file" -> drive l = [] ->
    is_pystr (reference_text rp q f) -> std_trim (reference_text rp q f) = reference_text rp q f -> reference_text rp q f <> [] ->
    ~ In 63 rp -> ~ In 35 rp -> (forall x, q = Some x -> ~ In 35 x) -> ~ In 92 rp -> ~ has_scheme rp -> (forall x, rp <> $"//" ++ x) ->
    (forall a c x y, std_any_drive_letter [a; c] = true -> $"/" ++ rp ++ $"/" <> x ++ $"/" ++ [a; c] ++ $"/" ++ y) ->
    (q = None \/ normalize_encoding E enc = $"utf-8") ->
    let (tp, tq) := rfc_transform true (path_text l) (query b)
                      (plain_dots (std_percent_encode path_set false rp)) (option_map (std_percent_encode (std_query_set $"file") false) q) in
    exists l', path_text l' = tp /\
      snd (parse_url E (reference_text rp q f) (BRec b) enc) =
      Ok (set_fragment (option_map (std_percent_encode fragment_set false) f) (set_query tq (set_path (PList l') b))).
Proof. exact rfc_file_reference. Qed.
Print Assumptions C100_file.
(** a reference that the RFC resolves; and what each hypothesis on drive letters excludes: the RFC
    would drop the drive of the base, or not see one in the reference *)
Example C100_file_case :
  drive [$"a"; $"b"] = [] /\ fst (rfc_transform true $"/a/b" None $"../c:d/./e" None) = $"/c:d/e" /\ hrefs (p1 $"../c:d/./e?q" rec_plain) = Ok $"file://h/c:d/e?q" /\
  fst (rfc_transform true $"/C:/x/y" None $"/z" None) = $"/z" /\ hrefs (p1 $"/z" rec_file) = Ok $"file:///C:/z" /\
  fst (rfc_transform true $"/a/b" None $"../c|/../e" None) = $"/e" /\ hrefs (p1 $"../c|/../e" rec_plain) = Ok $"file://h/c:/e".
Proof. repeat split; vm_compute; reflexivity. Qed.
