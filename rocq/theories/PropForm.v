(** C135: [urlencode] with any codec. *)
From Coq Require Import Ascii String.
From Coq Require Import NArith ZArith Bool Arith Lia ZifyBool ZifyN ZifyNat List.
From Verif Require Import PyStr Codec AnyCodec AnyForm CodecProofs QuoteProofs FormProofs PropCodec.
From Verif Require Import SpecText SpecUrl SpecForm.
Import ListNotations.
Open Scope N_scope.

(** The result is the fields, each the text of the name, '=' and the text of the value, joined with '&'. *)
Theorem C135_exact {X} (c : anycodec X) q t : bytes_codec c -> pystr_pairs q ->
  any_urlencode c q = inr t <-> exists ps, t = join $"&" ps /\ Forall2 (field_text c) ps q.
Proof. exact (urlencode_exact c q t). Qed.

(** Every text is form-urlencoded and stands for the bytes of the codec. *)
Theorem C135_form {X} (c : anycodec X) q t : bytes_codec c -> pystr_pairs q -> any_urlencode c q = inr t ->
  exists ps, t = join $"&" ps /\ Forall2 (form_field c) ps q.
Proof. exact (urlencode_form c q t). Qed.

(** An exception is that of the first name or value that the codec refuses. *)
Theorem C135_raises {X} (c : anycodec X) q x : bytes_codec c -> pystr_pairs q ->
  any_urlencode c q = inl x <->
  exists pre n v post, q = pre ++ (n, v) :: post /\ Forall (fun nv => exists bb, pair_bytes c bb nv) pre /\
    (codec_raises c n x \/ (exists bn, codec_bytes c n bn) /\ codec_raises c v x).
Proof. exact (urlencode_raise c q x). Qed.

(** [parse_qsl] reads back as many pairs, in order: the codec's bytes, decoded as UTF-8. *)
Theorem C135_read_back {X} (c : anycodec X) q t : bytes_codec c -> pystr_pairs q -> any_urlencode c q = inr t ->
  exists bl, Forall2 (pair_bytes c) bl q /\ parse_qsl t = map (fun bb => (std_utf8_decode (fst bb), std_utf8_decode (snd bb))) bl.
Proof. exact (urlencode_read c q t). Qed.

(** With the codec of UTF-8 it is the [urlencode] of the other claims. *)
Theorem C135_utf8 q : any_urlencode (char_codec utf8_enc1) q = inr (urlencode q).
Proof. exact (urlencode_utf8 q). Qed.

(* ---------- cases ---------- *)
Example C135_case : bytes_codec utf16_bom /\ pystr_pairs [($"a b", $"x"); ($"", $"*")].
Proof. split; [exact utf16_bytes|]. repeat constructor; cbv; discriminate. Qed.
Example C135_cases :
  any_urlencode utf16_bom [($"a b", $"x"); ($"", $"*")] = inr $"%FF%FEa%00+%00b%00=%FF%FEx%00&=%FF%FE*%00" /\
  any_urlencode shift_codec [($"a", [8364; 42; 32]); ($"~", $"&")] = inr $"%0Ea%0F=%26%238364%3B*+%0F&%0E~%0F=%0E%26%0F" /\
  any_urlencode no_codec [($"", $""); ($"", $"")] = inr $"=&=" /\
  any_urlencode no_codec [($"", $""); ($"", $"x")] = inl tt /\
  any_urlencode no_codec [] = inr [] /\
  parse_qsl $"%0Ea%0F=%26%238364%3B*+%0F&%0E~%0F=%0E%26%0F" = [([14; 97; 15], $"&#8364;* " ++ [15]); ([14; 126; 15], [14; 38; 15])].
Proof. vm_compute. repeat split. Qed.
(** a space of the bytes alone is escaped *)
Example C135_no_plus : any_urlencode utf16_bom [([8193], $"")] = inr $"%FF%FE%01%20=".
Proof. vm_compute. reflexivity. Qed.
Example C135_raises_case : codec_raises no_codec $"x" tt /\ codec_bytes no_codec [] [].
Proof. split; [split; [discriminate|left; reflexivity]|left; split; reflexivity]. Qed.

Print Assumptions C135_exact.
Print Assumptions C135_form.
Print Assumptions C135_raises.
Print Assumptions C135_read_back.
Print Assumptions C135_utf8.
