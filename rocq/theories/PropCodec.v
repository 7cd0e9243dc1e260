(** C132: the encoding argument with any codec. *)
From Coq Require Import Ascii String.
From Coq Require Import NArith ZArith Bool Arith Lia List.
From Verif Require Import PyStr PyInt Codec Env HostModel UrlRecord Parser AnyCodec AnyCodecProofs AnyCodecLog Lemmas CodecProofs QuoteProofs ExampleEnv.
From Verif Require Import SpecText SpecUrl SpecCodec.
Import ListNotations.
Open Scope N_scope.

Theorem C132_any_codec {X} (cd : str -> anycodec X) E s base enc : is_pystr s -> bytes_codec (cd (normalize_encoding E enc)) ->
  match snd (parse_new E s base UTF8) with
  | Err e => snd (any_new cd E s base enc) = Err e
  | Ok u =>
      (normalize_encoding E enc = $"utf-8" \/ ~ legacy_scheme (scheme u) \/ std_query_text s = None \/ std_query_text s = Some [] ->
         snd (any_new cd E s base enc) = Ok (inr u)) /\
      (forall q, normalize_encoding E enc <> $"utf-8" -> legacy_scheme (scheme u) -> std_query_text s = Some q -> q <> [] ->
         let c := cd (normalize_encoding E enc) in
         snd (any_new cd E s base enc) =
         match strict c (scalar_value_string q) with
         | EBytes b => Ok (inr (set_query (Some (percent_bytes special_query_set b)) u))
         | EOther x => Ok (inl x)
         | EUnencodable =>
             match chunks c (scalar_value_string q) with
             | inr x => Ok (inl x)
             | inl bs => Ok (inr (set_query (Some (flat_map percent_chunk bs)) u))
             end
         end)
  end.
Proof. exact (any_codec cd E s base enc). Qed.

Theorem C132_lookup {X} (cd : str -> anycodec X) E s base enc x : is_pystr s -> unknown_codec x (cd (normalize_encoding E enc)) ->
  let asked u := normalize_encoding E enc <> $"utf-8" /\ legacy_scheme (scheme u) /\ exists q, std_query_text s = Some q /\ q <> [] in
  (snd (any_new cd E s base enc) = Ok (inl x) <-> exists u, snd (parse_new E s base UTF8) = Ok u /\ asked u) /\
  (forall u, snd (any_new cd E s base enc) = Ok (inr u) <-> snd (parse_new E s base UTF8) = Ok u /\ ~ asked u) /\
  (forall e, snd (any_new cd E s base enc) = Err e <-> snd (parse_new E s base UTF8) = Err e).
Proof. exact (any_lookup cd E s base enc x). Qed.

Theorem C132_stateless E s base enc :
  plain_result (any_parse_url (fun e => char_codec (codec E e)) E s base enc) = parse_url E s base enc.
Proof. exact (url_char E s base enc). Qed.

(** The encoding does not change what is logged; if the codec's exception escapes, less is logged. *)
Theorem C132_log :
  (forall X (cd : str -> anycodec X) E s base enc,
     exists t : log, fst (parse_new E s base UTF8) = (fst (any_new cd E s base enc) ++ t)%list /\
     ((forall x, snd (any_new cd E s base enc) <> Ok (inl x)) -> t = [])) /\
  (forall E s base enc, snd (parse_new E s base enc) <> Err EUnicode -> fst (parse_new E s base enc) = fst (parse_new E s base UTF8)).
Proof. exact (conj (fun X => @any_log X) plain_log). Qed.

(* ---------- cases ---------- *)
(** "utf-16": a byte order mark, then two bytes for each character of the basic plane *)
Definition utf16_bom : anycodec unit :=
  {| strict := fun s => EBytes (255 :: 254 :: flat_map (fun c => [c mod 256; (c / 256) mod 256]) s); chunks := fun _ => inl [] |}.
(** an encoding Python does not know *)
Definition no_codec : anycodec unit := {| strict := fun _ => EOther tt; chunks := fun _ => inr tt |}.
(** a codec with a state: 14 before the first letter above 127, 15 at the end; no letters above 255 *)
Definition shift_codec : anycodec unit :=
  {| strict := fun s => if existsb (fun c => 255 <? c) s then EUnencodable else EBytes (14 :: s ++ [15]);
     chunks := fun s => inl (map (fun c => if 255 <? c then charref c else [c]) s ++ [[15]]) |}.
Definition codecs (e : str) : anycodec unit :=
  if str_eqb e $"utf-16" then utf16_bom else if str_eqb e $"shift" then shift_codec else no_codec.
Lemma utf16_bytes : bytes_codec utf16_bom.
Proof.
  split; intros s b H; injection H as <-; [|constructor]. repeat (constructor; [lia|]). apply Forall_forall. intros c Hc.
  apply in_flat_map in Hc as (d & _ & [<-|[<-|[]]]); apply N.mod_lt; lia.
Qed.
Definition got (s enc : str) : option (unit + option str) :=
  match snd (any_new codecs ascii_env s None enc) with
  | Ok (inl _) => Some (inl tt) | Ok (inr u) => Some (inr (query u)) | Err _ => None
  end.
Example C132_cases :
  got $"http://h/?ab#c" $"utf-16" = Some (inr (Some $"%FF%FEa%00b%00")) /\
  got ($"http://h/?a" ++ [8364] ++ $"b") $"shift" = Some (inr (Some $"a%26%238364%3Bb%0F")) /\
  got $"http://h/?ab" $"shift" = Some (inr (Some $"%0Eab%0F")) /\
  got $"http://h/?ab" $"nonsense" = Some (inl tt) /\
  got $"http://h/?#b" $"nonsense" = Some (inr (Some [])) /\
  got $"http://h/#?b" $"nonsense" = Some (inr None) /\
  got $"ws://h/?ab" $"nonsense" = Some (inr (Some $"ab")) /\
  got $"x:?ab" $"nonsense" = Some (inr (Some $"ab")) /\
  got $"http://?ab" $"nonsense" = None.
Proof. vm_compute. repeat split. Qed.
Example C132_log_case :
  fst (any_new codecs ascii_env $"http:h/?a b#c d" None $"utf-16") = fst (parse_new ascii_env $"http:h/?a b#c d" None UTF8) /\
  length (fst (parse_new ascii_env $"http:h/?a b#c d" None UTF8)) = 3%nat /\
  length (fst (any_new codecs ascii_env $"http:h/?a b#c d" None $"nonsense")) = 2%nat.
Proof. vm_compute. repeat split. Qed.
Example C132_case : is_pystr $"http://h/?ab#c" /\ bytes_codec (codecs (normalize_encoding ascii_env $"utf-16")) /\
  unknown_codec tt (codecs (normalize_encoding ascii_env $"nonsense")) /\
  std_query_text $"http://h/?ab#c" = Some $"ab" /\ legacy_scheme $"http".
Proof.
  split; [repeat (constructor; [cbv; discriminate|]); constructor|]. split; [exact utf16_bytes|]. split; [intros s; split; reflexivity|].
  split; [reflexivity|]. split; [vm_compute; tauto|]. split; vm_compute; discriminate.
Qed.

Print Assumptions C132_any_codec.
Print Assumptions C132_lookup.
Print Assumptions C132_stateless.
Print Assumptions C132_log.
