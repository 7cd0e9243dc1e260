(** The origin attribute. *)
From Coq Require Import Ascii String.
From Coq Require Import NArith ZArith Bool Arith List.
From Verif Require Import PyStr PyInt Codec Env HostModel UrlRecord Parser SearchParams UrlApi SpecText PyIntProofs IPv4Proofs HostProofs OriginProofs ExampleEnv PropApi.
From Verif Require Import SpecUrl SpecApi.
Import ListNotations.
Open Scope N_scope.

(** C133: [URL.origin] is "null" exactly for opaque origins; otherwise (IPv4 values of 2^32 and more aside, see C14) it is
    the href, but for the final slash, of a URL with that origin ... *)
Theorem C133_origin_text :
  (forall E o, get_origin E o = Ok $"null" <-> record_origin E (o_url o) = Ok None) /\
  (forall E o og, limit_ok E -> idna_ok E -> reached E o -> record_origin E (o_url o) = Ok (Some og) ->
     (forall n, og_host og = Some (HIPv4 n) -> n < 4294967296) ->
     exists t o', get_origin E o = Ok t /\ url_new E t BNone = Ok o' /\ get_href o' = t ++ $"/" /\
                  get_origin E o' = Ok t /\ record_origin E (o_url o') = Ok (Some og)).
Proof. exact (conj origin_text_null origin_text_object). Qed.
Print Assumptions C133_origin_text.

(** ... two objects have the same text exactly if they are same origin ... *)
Theorem C133_same_text :
  forall E o1 o2 og1 og2, limit_ok E -> idna_ok E -> reached E o1 -> reached E o2 ->
  record_origin E (o_url o1) = Ok (Some og1) -> record_origin E (o_url o2) = Ok (Some og2) ->
  (forall n, og_host og1 = Some (HIPv4 n) -> n < 4294967296) -> (forall n, og_host og2 = Some (HIPv4 n) -> n < 4294967296) ->
  (get_origin E o1 = get_origin E o2 <-> is_same_origin og1 og2 = true).
Proof. exact origin_text_inj. Qed.
Print Assumptions C133_same_text.

(** ... and the href of a network URL without credentials begins with it, up to a slash. *)
Theorem C133_prefix :
  forall E o, reached E o -> std_network_scheme (scheme (o_url o)) -> username (o_url o) = [] -> password (o_url o) = [] ->
  exists t r, get_origin E o = Ok t /\ get_href o = t ++ 47 :: r.
Proof. exact origin_prefix. Qed.
Print Assumptions C133_prefix.

Example C133_case :
  let o := obj $"blob:https://H:8080/x" in
  reached ascii_env o /\ get_origin ascii_env o = Ok $"https://h:8080" /\
  record_origin ascii_env (o_url o) = Ok (Some (mkorigin $"https" (Some (HStr $"h")) (Some 8080) None)) /\
  get_href (obj $"https://h:8080") = $"https://h:8080/" /\
  get_origin ascii_env (obj $"x://h:8080") = Ok $"null" /\
  reached ascii_env (obj $"ws://[::1]/?q") /\ get_href (obj $"ws://[::1]?q") = $"ws://[::1]/?q" /\
  get_origin ascii_env (obj $"ws://[::1]?q") = Ok $"ws://[::1]" /\ get_origin ascii_env (obj $"wss://[::1]:80") <> get_origin ascii_env (obj $"wss://[::1]").
Proof. cbv zeta. repeat (split; [first [reach|vm_compute; reflexivity]|]). vm_compute. discriminate. Qed.
