(** Serializations are at most linear in the input. *)
From Coq Require Import Ascii String.
From Coq Require Import NArith ZArith Bool Arith List.
From Verif Require Import PyStr PyInt Codec Env HostModel UrlRecord Parser SpecText QuoteProofs LegacyProofs WfProofs UrlProps ExampleEnv PropParser LengthProofs SpecLength.
Import ListNotations.
Open Scope N_scope.

(** C125: the serialization of a parsed URL has at most 12 characters for each code point of the input, besides the
    base, the host and 16 characters; 16 for each if another encoding of at most 5 bytes for a character is given. *)
Theorem C125_length :
  (forall E s base enc u, normalize_encoding E enc = $"utf-8" -> is_pystr s -> base_parsed E base ->
     snd (parse_url E s base enc) = Ok u -> length_bound 12 s base u) /\
  (forall E s base enc u, ascii_compatible (codec E (normalize_encoding E enc)) ->
     (forall c b, codec E (normalize_encoding E enc) c = Some b -> (length b <= 5)%nat) -> is_pystr s -> base_parsed E base ->
     snd (parse_url E s base enc) = Ok u -> length_bound 16 s base u).
Proof. exact (conj length_utf8 length_legacy). Qed.
Print Assumptions C125_length.
(** the factors cannot be smaller: each code point of the path gives 12 characters, each of the query 16 *)
Example C125_case :
  (exists u, snd (parse_url ascii_env ($"x:" ++ repeat 65536 20) BNone $"utf-8") = Ok u /\
     length (href u) = (2 + 12 * 20)%nat /\ length_bound 12 ($"x:" ++ repeat 65536 20) BNone u) /\
  (exists u, snd (parse_url ascii_env ($"http://h/?" ++ repeat 1114111 20) BNone $"latin-1") = Ok u /\
     length (href u) = (10 + 16 * 20)%nat /\ length_bound 16 ($"http://h/?" ++ repeat 1114111 20) BNone u).
Proof.
  split; eexists; (split; [vm_compute; reflexivity|]); (split; [vm_compute; reflexivity|]).
  - apply (proj1 C125_length ascii_env _ BNone $"utf-8"); [reflexivity| |exact I|vm_compute; reflexivity]. apply pystr_dec. vm_compute. reflexivity.
  - apply (proj2 C125_length ascii_env _ BNone $"latin-1"); [exact latin1_ok| | |exact I|vm_compute; reflexivity].
    + intros c b H. change (latin1 c = Some b) in H. unfold latin1 in H. destruct (c <? 256); [|discriminate]. injection H as <-. cbn [length]. apply le_S, le_S, le_S, le_S, le_n.
    + apply pystr_dec. vm_compute. reflexivity.
Qed.
