(** Which URL objects a program can hold, exactly. *)
From Coq Require Import Ascii String.
From Coq Require Import NArith ZArith Bool Arith List.
From Verif Require Import PyStr PyInt Codec Env HostModel UrlRecord Parser SearchParams UrlApi SpecText SpecHost PyIntProofs IPv4Proofs HostProofs WfProofs RoundTrip IntGrammar HostStandard UrlProps ExampleEnv PropApi CanonProofs HeldProofs.
From Verif Require Import SpecUrl SpecApi SpecCanon SpecObjects.
Import ListNotations.
Open Scope N_scope.

(** C131: an object is the result of some history of constructions and calls (IPv4 values of 2^32 and more aside, see
    C14) exactly if its record is one of SpecObjects.v and its list is the parsed query. *)
Theorem C131_objects :
  forall E o, limit_ok E -> idna_ok E ->
  (reached E o /\ url_v4_ok (o_url o) <->
   held (code_to_ascii E) (odd_number E) (o_url o) /\
   o_list o = std_urlencoded_parse (std_utf8_encode (scalar_value_string (match query (o_url o) with Some q => q | None => [] end)))).
Proof. exact held_listed. Qed.
Print Assumptions C131_objects.
(** C131: such an object is what its own href parses to exactly if its record is canonical, i.e. has no port 0 beside an
    empty host or the scheme "file", and is no "file" URL with the host "localhost" or with a drive letter written with "|". *)
Theorem C131_reparse :
  forall E o, limit_ok E -> idna_ok E -> reached E o -> url_v4_ok (o_url o) ->
  (url_new E (get_href o) BNone = Ok o <-> canonical (code_to_ascii E) (odd_number E) (o_url o)).
Proof. exact canonical_reparse. Qed.
Print Assumptions C131_reparse.
Theorem C131_canonical :
  forall to_ascii as_number u, canonical to_ascii as_number u <->
  held to_ascii as_number u /\
  (port u = Some 0 -> uhost u <> Some (HStr []) /\ scheme u <> $"file") /\
  (scheme u = $"file" -> uhost u <> Some (HStr $"localhost") /\
     forall a l, std_alpha a = true -> path u <> PList ([a; 124] :: l)).
Proof. exact canonical_held. Qed.
Print Assumptions C131_canonical.

(** all three relaxations at once, and the calls that lead there; the other record has a non-zero port beside an empty
    host, which no history makes *)
Definition odd_file : urlrec := mkurl $"file" [] [] (Some (HStr $"localhost")) (Some 0) (PList [$"C|"; $"x"]) None None.
Definition odd_port : urlrec := mkurl $"x" [] [] (Some (HStr [])) (Some 8080) (PList []) None None.
Lemma odd_file_reached : reached ascii_env (mkobj odd_file []).
Proof.
  replace (mkobj odd_file []) with (do_call ascii_env (CSet (SetProtocol $"file")) (obj $"http://localhost:0/C|/x")) by (vm_compute; reflexivity).
  reach.
Qed.
Example C131_case :
  held (code_to_ascii ascii_env) (odd_number ascii_env) odd_file /\ href odd_file = $"file://localhost:0/C|/x" /\
  ~ canonical (code_to_ascii ascii_env) (odd_number ascii_env) odd_file /\
  url_new ascii_env (href odd_file) BNone <> Ok (mkobj odd_file []) /\
  ~ held (code_to_ascii ascii_env) (odd_number ascii_env) odd_port /\ ~ reached ascii_env (mkobj odd_port []).
Proof.
  assert (NH : ~ held (code_to_ascii ascii_env) (odd_number ascii_env) odd_port).
  { intros H. assert (A : uhost odd_port <> Some (HStr [])); [|now apply A]. apply (held_authority _ _ _ H). right; right. exists 8080. split; [reflexivity|discriminate]. }
  assert (NC : ~ canonical (code_to_ascii ascii_env) (odd_number ascii_env) odd_file).
  { intros H. apply C131_canonical in H as (_ & H & _). now apply (H eq_refl). }
  split; [|split; [reflexivity|split; [exact NC|split; [|split; [exact NH|]]]]].
  - apply (C131_objects ascii_env (mkobj odd_file [])); [exact ascii_env_limit|exact ascii_env_idna|]. split; [exact odd_file_reached|]. intros n. discriminate.
  - intros Q. apply NC. apply (C131_reparse ascii_env (mkobj odd_file [])); [exact ascii_env_limit|exact ascii_env_idna|exact odd_file_reached|intros n; discriminate|exact Q].
  - intros R. apply NH. apply (C131_objects ascii_env (mkobj odd_port [])); [exact ascii_env_limit|exact ascii_env_idna|]. split; [exact R|]. intros n. discriminate.
Qed.
