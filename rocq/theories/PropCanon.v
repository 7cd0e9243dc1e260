(** What the parser returns, exactly. *)
From Coq Require Import Ascii String.
From Coq Require Import NArith ZArith Bool Arith List.
From Verif Require Import PyStr PyInt Codec Env HostModel UrlRecord Parser SpecText PyIntProofs IPv4Proofs HostProofs WfProofs RoundTrip IntGrammar HostStandard UrlProps ExampleEnv PropParser CanonProofs SpecUrl SpecCanon.
Import ListNotations.
Open Scope N_scope.

(** C124: the records that the parser makes (out of any strings and bases, IPv4 values of 2^32 and more
    aside, see C14) are exactly the canonical ones; a string is returned unchanged by URL(s).href exactly if it is the
    serialization of a canonical record; and different canonical records have different serializations. *)
Theorem C124_canonical :
  (forall E u, limit_ok E -> idna_ok E -> (parsed E u /\ url_v4_ok u <-> canonical (code_to_ascii E) (odd_number E) u)) /\
  (forall E s enc, limit_ok E -> idna_ok E -> enc_ok E (normalize_encoding E enc) -> is_pystr s ->
     ((exists u, snd (parse_url E s BNone enc) = Ok u /\ href u = s) <->
      (exists u, canonical (code_to_ascii E) (odd_number E) u /\ s = href u))) /\
  (forall E u v, limit_ok E -> idna_ok E -> canonical (code_to_ascii E) (odd_number E) u -> canonical (code_to_ascii E) (odd_number E) v ->
     href u = href v -> u = v).
Proof. exact (conj canonical_parsed (conj canonical_strings canonical_inj)). Qed.
Print Assumptions C124_canonical.
(** the second record is not canonical: no string and base give it *)
Example C124_case :
  canonical (code_to_ascii ascii_env) (odd_number ascii_env) rec_http /\ href rec_http = $"http://us:p%40w@h:8080/a/b?q#f" /\
  ~ canonical (code_to_ascii ascii_env) (odd_number ascii_env) (mkurl $"x" [] [] None None (PList [$"%2E"]) None None) /\
  ~ canonical (code_to_ascii ascii_env) (odd_number ascii_env) (mkurl $"file" [] [] (Some (HStr [])) None (PList [$"C|"]) None None).
Proof.
  split; [|split; [reflexivity|split]].
  - apply (proj1 C124_canonical); [exact ascii_env_limit|exact ascii_env_idna|]. split; [exact rec_http_parsed|]. intros n. discriminate.
  - intros C. pose proof (can_path _ _ _ C) as P. unfold canonical_path in P. cbn [path] in P. destruct P as (P & _). inversion P as [|s l (_ & P' & _) Q R]. discriminate P'.
  - intros C. pose proof (can_path _ _ _ C) as P. unfold canonical_path in P. cbn [path] in P. destruct P as (_ & _ & P). now apply (P eq_refl 67 []).
Qed.
