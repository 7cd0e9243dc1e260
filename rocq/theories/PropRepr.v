(** Property theorems C104, C105: the texts that repr() gives for records, query lists and
    URL objects. *)
From Coq Require Import Ascii String.
From Coq Require Import NArith ZArith Bool Arith Lia List.
From Verif Require Import PyStr PyInt Codec Env HostModel UrlRecord Parser SearchParams UrlApi Repr SpecText SpecHost.
From Verif Require Import LegacyProofs IPv4Proofs HostProofs WfProofs RoundTrip UrlProps ParamProofs ExampleEnv ReprProofs PropParser PropParams PropApi.
From Verif Require Import SpecPyInt SpecParams SpecText SpecUrl SpecParser SpecRepr.
Import ListNotations.
Open Scope N_scope.

(** C104. [pr] is str.isprintable. A record's text is a call of URLRecord with literals as its
    arguments, whose values are the record's attributes; so records with the same text are equal. *)
Theorem C104_record_repr :
  (forall E pr u t, pystr_rec u -> record_repr E pr u = Ok t -> exists args, reads_call t $"URLRecord" args /\ record_value args u) /\
  (forall t name args args', reads_call t name args -> reads_call t name args' -> args = args') /\
  (forall args u u', record_value args u -> record_value args u' -> u = u') /\
  (forall E pr E' pr' u u' t, pystr_rec u -> pystr_rec u' -> record_repr E pr u = Ok t -> record_repr E' pr' u' = Ok t -> u = u').
Proof. exact (conj record_read (conj call_fun (conj record_value_fun record_repr_inj))). Qed.
Print Assumptions C104_record_repr.
(** a query list's text is a call of URLSearchParams with the list, and URLSearchParams makes the
    same query list from it *)
Theorem C104_params_repr :
  forall E pr l, reachable l ->
    exists lit, params_repr E pr l = Ok ($"URLSearchParams(" ++ lit ++ $")") /\ reads lit (PSeq false (map pair_value l)) /\
      (forall o, reads lit o -> o = PSeq false (map pair_value l)) /\ sp_init_pairs (map (fun p => (PVStr (fst p), PVStr (snd p))) l) = l.
Proof. exact reachable_repr. Qed.
Print Assumptions C104_params_repr.
Theorem C104_params_repr_distinct :
  forall E pr E' pr' l l', Forall (fun p => is_pystr (fst p) /\ is_pystr (snd p)) l -> Forall (fun p => is_pystr (fst p) /\ is_pystr (snd p)) l' ->
    params_repr E pr l = params_repr E' pr' l' -> l = l'.
Proof. exact params_repr_inj. Qed.
Print Assumptions C104_params_repr_distinct.
(** a URL object's text is "<URL(...)>" with the attributes as its arguments *)
Theorem C104_url_repr :
  forall E pr o origin, get_origin E o = Ok origin -> Forall is_pystr (url_texts o origin) ->
    exists t, url_repr E pr o = Ok ($"<" ++ t ++ $">") /\ reads_call t $"URL" (combine url_names (map PStr (url_texts o origin))).
Proof. exact url_read. Qed.
Print Assumptions C104_url_repr.
Definition plain (c : N) : bool := (c =? 233).
Example C104_case :
  record_repr ascii_env plain (mkurl $"http" $"a'" [233; 160; 34; 39] (Some (HIPv4 3221226219)) (Some 8080) (PList [$"x"; [92; 10; 0]]) None (Some [128512; 55357])) =
  Ok ($"URLRecord(scheme='http', username=" ++ [34] ++ $"a'" ++ [34] ++ $", password='" ++ [233] ++ $"\xa0" ++ [34] ++ $"\'', host=3221226219, port=8080, path=['x', '\\\n\x00'], query=None, fragment='\U0001f600\ud83d')") /\
  record_repr ascii_env plain (mkurl $"a" [] [] (Some (HIPv6 [1; 0; 0; 0; 0; 0; 0; 65535])) None (PList []) (Some []) None) =
  Ok $"URLRecord(scheme='a', username='', password='', host=(1, 0, 0, 0, 0, 0, 0, 65535), port=None, path=[], query='', fragment=None)" /\
  record_repr ascii_env plain (mkurl $"a" [] [] None None (POpaque $"None") (Some $"None") None) =
  Ok $"URLRecord(scheme='a', username='', password='', host=None, port=None, path='None', query='None', fragment=None)" /\
  params_repr ascii_env plain [($"a", $"b c"); ([], $"'")] = Ok ($"URLSearchParams([('a', 'b c'), ('', " ++ [34; 39; 34] ++ $")])") /\
  params_repr ascii_env plain [] = Ok $"URLSearchParams([])" /\
  read_lit 30 $"[('a',), 12, (7), (), None]" = Some (PSeq false [PSeq true [PStr $"a"]; PInt 12; PInt 7; PSeq true []; PNone], []) /\
  url_repr ascii_env plain (obj $"http://u@h:81/p?q#f") =
  Ok $"<URL(href='http://u@h:81/p?q#f', origin='http://h:81', protocol='http:', username='u', password='', host='h:81', hostname='h', port='81', pathname='/p', search='?q', hash='#f')>".
Proof. repeat split; vm_compute; reflexivity. Qed.

(** C105. False: the host of a parsed record can be an integer with more digits than the
    int/str digit limit (C55), and its repr raises ValueError. *)
Theorem C105_repr_total_refuted :
  exists u, parsed low_env u /\ limit_ok low_env /\ record_repr low_env plain u = Err EValue.
Proof.
  assert (X : exists u, snd (parse_url low_env huge_v4 BNone UTF8) = Ok u /\ record_repr low_env plain u = Err EValue) by (eexists; split; vm_compute; reflexivity).
  destruct X as (u & P & R). exists u. split; [|split; [unfold limit_ok; cbn [low_env int_limit]; lia|exact R]].
  apply (parsed_none low_env huge_v4 UTF8 u); [|now left|exact P].
  apply Forall_forall. intros c H. unfold huge_v4 in H. apply in_app_or in H as [H|H]; [|apply in_app_or in H as [H|H]].
  - revert c H. apply Forall_forall. pys.
  - apply repeat_spec in H. subst. discriminate.
  - revert c H. apply Forall_forall. pys.
Qed.
Print Assumptions C105_repr_total_refuted.
(** Missing: records with such a host or port. *)
Theorem C105_repr_total_partial :
  (forall E pr u, limit_ok E -> (exists t, record_repr E pr u = Ok t) <-> Forall (printable (int_limit E)) (record_ints u)) /\
  (forall E pr u, record_repr E pr u = Err EValue \/ exists t, record_repr E pr u = Ok t) /\
  (forall E pr u, limit_ok E -> parsed E u -> (forall n, uhost u = Some (HIPv4 n) -> n < 4294967296) -> exists t, record_repr E pr u = Ok t) /\
  (forall E pr o e, url_repr E pr o = Err e -> get_origin E o = Err e).
Proof. exact (conj record_repr_ok (conj record_repr_fails (conj parsed_repr url_repr_err))). Qed.
Print Assumptions C105_repr_total_partial.
Example C105_case :
  record_ints (mkurl $"a" [] [] (Some (HIPv6 [1; 0; 0; 0; 0; 0; 0; 65535])) (Some 80) (PList []) None None) = [1; 0; 0; 0; 0; 0; 0; 65535; 80] /\
  Forall (printable (Some 640)) [1; 65535] /\ parsed ascii_env rec_http.
Proof. split; [reflexivity|]. split; [repeat constructor; unfold printable; vm_compute; reflexivity|exact rec_http_parsed]. Qed.
